(** Specification for finding out whether a cpu may change its frequency. Independent of the
    implementation model. *)
From Coq Require Import String List ZArith Bool.
From Verif Require Import Base64_Spec.
Import ListNotations.
Local Open Scope Z_scope.

(** The names in the directory of the cpus that stand for one: "cpu" and a digit, then
    anything. *)
Definition names_cpu (name : list Z) : Prop := exists d rest, name = codes "cpu" ++ d :: rest /\ 48 <= d <= 57.
(** The file system: the bytes of a file that can be opened. *)
Definition files := list Z -> option (list Z).
(** The first line of a file: short and without zero bytes; a file that cannot be opened
    counts as an empty line. *)
Definition first_line (f : option (list Z)) (l : list Z) : Prop :=
  match f with
  | None => l = []
  | Some bytes => ~ In 10 l /\ ~ In 0 l /\ (length l <= 78)%nat /\ exists rest, bytes = l ++ 10 :: rest
  end.
Definition setting (fs : files) (cpu what line : list Z) : Prop :=
  first_line (fs (codes "/sys/devices/system/cpu/" ++ cpu ++ codes "/cpufreq/" ++ what)) line.
(** A cpu keeps its frequency: its governor says so, or there is only one it may have. *)
Definition keeps_frequency (fs : files) (cpu : list Z) : Prop :=
  setting fs cpu (codes "scaling_governor") (codes "performance") \/
  exists f, f <> [] /\ setting fs cpu (codes "scaling_min_freq") f /\ setting fs cpu (codes "scaling_max_freq") f.
(** Every file asked about can be read as a line. *)
Definition readable (fs : files) (cpu : list Z) : Prop :=
  forall what, In what [codes "scaling_min_freq"; codes "scaling_max_freq"; codes "scaling_governor"] -> exists line, setting fs cpu what line.
