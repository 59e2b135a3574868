(** Specification vocabulary for getDeptoolInfo. *)
From Coq Require Import String Ascii ZArith Bool List.
From Verif Require Import Common StringUtil_Spec DepTool_Model.
Import ListNotations.
Local Open Scope Z_scope.

(** A C string that fits a line. *)
Definition one_line (s : str) : Prop := ~ In 10 s /\ ~ In 0 s.
(** Text made of lines. *)
Definition lines (ls : list str) : str := concat (map (fun l => l ++ [10]) ls).
Definition starts (p s : str) : Prop := exists t, s = p ++ t.
Definition export_os : str := lit "export BUILD_OS=""".
Definition export_arch : str := lit "export UNAME_M=""".
(** The lines of deptool's output: a setting of either variable, which ends in a quote and
    one more character (a semicolon), or a line about something else. *)
Inductive line := SetOs (v : str) (c : Z) | SetArch (v : str) (c : Z) | Other (s : str).
Definition render (l : line) : str :=
  match l with
  | SetOs v c => export_os ++ v ++ [34; c]
  | SetArch v c => export_arch ++ v ++ [34; c]
  | Other s => s
  end.
Definition proper (l : line) : Prop :=
  match l with
  | SetOs v _ | SetArch v _ => v <> [] /\ ~ In 34 v
  | Other s => ~ starts export_os s /\ ~ starts export_arch s
  end /\ one_line (render l).
(** The last setting of each variable, or what it was before. *)
Definition last_os (ls : list line) (d : str) : str := fold_left (fun a l => match l with SetOs v _ => v | _ => a end) ls d.
Definition last_arch (ls : list line) (d : str) : str := fold_left (fun a l => match l with SetArch v _ => v | _ => a end) ls d.
(** A line that starts as a setting and is none. *)
Definition broken (s : str) : Prop :=
  one_line s /\ (starts export_os s \/ starts export_arch s) /\
  (forall v c, v <> [] -> ~ In 34 v -> s <> export_os ++ v ++ [34; c] /\ s <> export_arch ++ v ++ [34; c]).
(** The answer for a value of BUILD_OS and an architecture: split at the first dash. *)
Definition answer (b a : str) (r : res DeptoolInfo) : Prop :=
  (forall o v, b = o ++ [45] ++ v -> ~ In 45 o -> r = Ok {| os := o; version := v; arch := a |}) /\
  (~ In 45 b -> r = Abort).
(** Values of the environment *)
Definition sane (e : env) : Prop := Z.of_nat (length (getEnv (BUILD_OS e))) < 2 ^ 63.
