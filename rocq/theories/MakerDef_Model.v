(** Model of what StatsMaker makes (include/Lintel/StatsMaker.hpp, src/StatsMaker.cpp,
    src/StatsRW.cpp): the definitions with their fields, which the setMode* functions
    change in place, and the constructor make() calls. The search for the definition is
    that of Maker_Model. Doubles are a type of any kind, only copied. *)
From Coq Require Import List Arith ZArith Bool String Ascii.
From Verif Require Import Common Maker_Model.
Import ListNotations.
Open Scope Z_scope.

(** StatsHistogram::HistMode, StatsHistogram.hpp:62 *)
Inductive histmode : Type := Uniform | Log | UniformAccum | LogAccum.

Section D.
Variable V : Type.   (* double *)

(** The constructor calls: new Stats, StatsHistogramUniform, ... with their arguments as
    converted to the parameters' types (unsigned bins, StatsHistogram.hpp:121-125, 179-182,
    and 236-238; int for the group, 314-316; unsigned long for the sequence,
    StatsSequence.hpp:23). *)
Inductive object : Type :=
| NStats
| NUniform (bins : Z) (low high : V) (scalable growable : bool)
| NLog (bins : Z) (low high : V) (scalable : bool)
| NUniformAccum (bins : Z) (low high : V) (scalable growable : bool)
| NLogAccum (bins : Z) (low high : V)
| NGroup (mode : histmode) (bins : Z) (ranges : list V)
| NSequence (max_retain : Z).

Inductive makefn : Type := FSimple | FHistogram | FGroup | FSequence.

(** statDefT, StatsMaker.hpp:58-67. A field that was never assigned is None; [ranges] is
    an empty vector. makeStatsRWFn always is makeRWStats. *)
Record statDef : Type := {
  d_histmode : option histmode; d_bins : option Z; d_low : option V; d_high : option V;
  d_scalable : option bool; d_growable : option bool; d_ranges : list V; d_fn : makefn }.
Definition new_def : statDef :=
  {| d_histmode := None; d_bins := None; d_low := None; d_high := None; d_scalable := None; d_growable := None;
     d_ranges := []; d_fn := FSimple |}.

(** The assignments of setModeSimple, setModeHistogram, setModeHistogramGroup and
    setModeSequence, StatsMaker.cpp:54-99 *)
Definition set_simple (d : statDef) : statDef :=
  {| d_histmode := d_histmode d; d_bins := d_bins d; d_low := d_low d; d_high := d_high d; d_scalable := d_scalable d;
     d_growable := d_growable d; d_ranges := d_ranges d; d_fn := FSimple |}.
Definition set_histogram (m : histmode) (bins : Z) (low high : V) (sc gr : bool) (d : statDef) : statDef :=
  {| d_histmode := Some m; d_bins := Some bins; d_low := Some low; d_high := Some high; d_scalable := Some sc;
     d_growable := Some gr; d_ranges := d_ranges d; d_fn := FHistogram |}.
Definition set_group (m : histmode) (bins : Z) (ranges : list V) (d : statDef) : statDef :=
  {| d_histmode := Some m; d_bins := Some bins; d_low := d_low d; d_high := d_high d; d_scalable := d_scalable d;
     d_growable := d_growable d; d_ranges := ranges; d_fn := FGroup |}.
Definition set_sequence (max_retain : Z) (d : statDef) : statDef :=
  {| d_histmode := d_histmode d; d_bins := Some max_retain; d_low := d_low d; d_high := d_high d; d_scalable := d_scalable d;
     d_growable := d_growable d; d_ranges := d_ranges d; d_fn := FSequence |}.

(** Reading a field that was never assigned is undefined. *)
Definition field {A} (f : option A) : res A := match f with Some a => Ok a | None => UB end.
Definition to_unsigned (z : Z) : Z := z mod 2 ^ 32.
Definition to_unsigned_long (z : Z) : Z := z mod 2 ^ 64.

(** makeHistogram, StatsMaker.cpp:121-144 *)
Definition makeHistogram (d : statDef) : res object :=
  let! m := field (d_histmode d) in
  let! bins := field (d_bins d) in
  let! low := field (d_low d) in
  let! high := field (d_high d) in
  match m with
  | Uniform => let! sc := field (d_scalable d) in let! gr := field (d_growable d) in Ok (NUniform (to_unsigned bins) low high sc gr)
  | Log => let! sc := field (d_scalable d) in Ok (NLog (to_unsigned bins) low high sc)
  | UniformAccum => let! sc := field (d_scalable d) in let! gr := field (d_growable d) in Ok (NUniformAccum (to_unsigned bins) low high sc gr)
  | LogAccum => Ok (NLogAccum (to_unsigned bins) low high)
  end.
(** makeSimple, makeHistogramGroup, makeSequence (StatsMaker.cpp:115-119, 146-156), and the
    call of ref.makeStatsFn (line 105) *)
Definition make_of (d : statDef) : res object :=
  match d_fn d with
  | FSimple => Ok NStats
  | FHistogram => makeHistogram d
  | FGroup => let! m := field (d_histmode d) in let! bins := field (d_bins d) in Ok (NGroup m bins (d_ranges d))
  | FSequence => let! bins := field (d_bins d) in Ok (NSequence (to_unsigned_long bins))
  end.

(** A mode given to the functions outside the class is a string; getHistMode,
    StatsMaker.cpp:165-181. *)
Inductive modearg : Type := ByEnum (m : histmode) | ByName (s : string).
Definition getHistMode (s : string) : res histmode :=
  if (s =? "Uniform")%string then Ok Uniform
  else if (s =? "Log")%string then Ok Log
  else if (s =? "UniformAccum")%string then Ok UniformAccum
  else if (s =? "LogAccum")%string then Ok LogAccum
  else Abort.
Definition mode_of (a : modearg) : res histmode := match a with ByEnum m => Ok m | ByName s => getHistMode s end.

(** The calls. A group's ranges are copied (lines 80-90 and 204-214). *)
Inductive call : Type :=
| SetSimple (n : list Z)
| SetHistogram (n : list Z) (m : modearg) (bins : Z) (low high : V) (sc gr : bool)
| SetGroup (n : list Z) (m : modearg) (bins : Z) (ranges : list V)
| SetSequence (n : list Z) (max_retain : Z)
| Make (n : list Z)
| MakeRW (n : list Z).

(** getCreateStatDef, StatsMaker.cpp:16-25, and a change of what it returns *)
Definition modify (d : defs statDef) (n : list Z) (f : statDef -> statDef) : defs statDef :=
  set_mode statDef d n (f (match lookup d n with Some k => k | None => new_def end)).

Definition bytes (s : string) : list Z := map (fun c => Z.of_nat (nat_of_ascii c)) (list_ascii_of_string s).
(** make, StatsMaker.cpp:101-106 *)
Definition make (d : defs statDef) (n : list Z) : res (defs statDef * object) :=
  let! (k, d) := getDefaultStatDef statDef new_def d n in
  let! o := make_of k in
  Ok (d, o).
(** makeRW, StatsMaker.cpp:108-113, and the constructor of StatsRW, StatsRW.cpp:15-26:
    the objects in [read], [write] and [all] *)
Definition makeRW (d : defs statDef) (n : list Z) : res (defs statDef * (object * object * object)) :=
  let! (_, d) := getDefaultStatDef statDef new_def d n in
  let! (d, r) := make d (n ++ bytes "-read") in
  let! (d, w) := make d (n ++ bytes "-write") in
  let! (d, a) := make d (n ++ bytes "-all") in
  Ok (d, (r, w, a)).

Inductive answer : Type := ANone | AStats (o : object) | ARW (r w a : object).
Definition step (d : defs statDef) (c : call) : res (defs statDef * answer) :=
  match c with
  | SetSimple n => Ok (modify d n set_simple, ANone)
  | SetHistogram n a bins low high sc gr => let! m := mode_of a in Ok (modify d n (set_histogram m bins low high sc gr), ANone)
  | SetGroup n a bins ranges => let! m := mode_of a in Ok (modify d n (set_group m bins ranges), ANone)
  | SetSequence n mr => Ok (modify d n (set_sequence mr), ANone)
  | Make n => let! (d, o) := make d n in Ok (d, AStats o)
  | MakeRW n => let! (d, (r, w, a)) := makeRW d n in Ok (d, ARW r w a)
  end.
(** A program from the start of the process. *)
Definition run (l : list call) : list (res answer) := run_ops step [] l.
End D.
Arguments NStats {V}. Arguments NUniform {V}. Arguments NLog {V}. Arguments NUniformAccum {V}. Arguments NLogAccum {V}. Arguments NGroup {V}. Arguments NSequence {V}.
Arguments SetSimple {V}. Arguments SetHistogram {V}. Arguments SetGroup {V}. Arguments SetSequence {V}. Arguments Make {V}. Arguments MakeRW {V}.
Arguments ANone {V}. Arguments AStats {V}. Arguments ARW {V}.
