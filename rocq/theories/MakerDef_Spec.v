(** Specification of what StatsMaker makes. *)
From Coq Require Import List Arith ZArith Bool String.
From Verif Require Import Common Maker_Model Maker_Spec MakerDef_Model.
Import ListNotations.
Open Scope Z_scope.

Section S.
Context {V : Type}.

(** The four names of the modes. *)
Definition names (s : string) (m : histmode) : Prop :=
  (s = "Uniform" /\ m = Uniform \/ s = "Log" /\ m = Log \/ s = "UniformAccum" /\ m = UniformAccum \/ s = "LogAccum" /\ m = LogAccum)%string.
Definition means (a : modearg) (m : histmode) : Prop := match a with ByEnum m' => m' = m | ByName s => names s m end.

(** The object a setMode* call asks make() to create for its name. A logarithmic histogram
    does not grow and an accumulating one neither grows nor rescales: those flags are not
    used. *)
Inductive asks : call V -> list Z -> object V -> Prop :=
| A_simple : forall n, asks (SetSimple n) n NStats
| A_uniform : forall n a bins low high sc gr, means a Uniform -> asks (SetHistogram n a bins low high sc gr) n (NUniform bins low high sc gr)
| A_log : forall n a bins low high sc gr, means a Log -> asks (SetHistogram n a bins low high sc gr) n (NLog bins low high sc)
| A_uniform_accum : forall n a bins low high sc gr, means a UniformAccum -> asks (SetHistogram n a bins low high sc gr) n (NUniformAccum bins low high sc gr)
| A_log_accum : forall n a bins low high sc gr, means a LogAccum -> asks (SetHistogram n a bins low high sc gr) n (NLogAccum bins low high)
| A_group : forall n a m bins ranges, means a m -> asks (SetGroup n a bins ranges) n (NGroup m bins ranges)
| A_sequence : forall n mr, asks (SetSequence n mr) n (NSequence mr).

(** A call names a mode that does not exist. *)
Definition bad_mode (c : call V) : Prop :=
  match c with
  | SetHistogram _ (ByName s) _ _ _ _ _ | SetGroup _ (ByName s) _ _ => forall m, ~ names s m
  | _ => False
  end.
(** Counts are not negative, and ints. *)
Definition counts (c : call V) : Prop :=
  match c with
  | SetHistogram _ _ bins _ _ _ _ | SetGroup _ _ bins _ => 0 <= bins < 2 ^ 31
  | SetSequence _ mr => 0 <= mr < 2 ^ 31
  | _ => True
  end.

(** The answers to the calls [l], when [set p] is what the latest setMode* call for the
    name [p] asked for: make(n) creates what was asked for the longest name that applies
    to n, else for "default", else a Stats ([chosen]); makeRW(n) creates the three for
    n-read, n-write and n-all. The setting changes only by setMode* calls. *)
Inductive answers : (list Z -> option (object V)) -> list (call V) -> list (res (answer V)) -> Prop :=
| R_nil : forall set, answers set [] []
| R_set : forall set set' c n o l r, asks c n o -> set' n = Some o -> (forall p, p <> n -> set' p = set p) ->
    answers set' l r -> answers set (c :: l) (Ok ANone :: r)
| R_bad : forall set c l, bad_mode c -> answers set (c :: l) [Abort]
| R_make : forall set n o l r, chosen NStats set n o -> answers set l r -> answers set (Make n :: l) (Ok (AStats o) :: r)
| R_makeRW : forall set n r w a l ans,
    chosen NStats set (n ++ [45; 114; 101; 97; 100]) r -> chosen NStats set (n ++ [45; 119; 114; 105; 116; 101]) w ->
    chosen NStats set (n ++ [45; 97; 108; 108]) a ->
    answers set l ans -> answers set (MakeRW n :: l) (Ok (ARW r w a) :: ans).
End S.
