(** Model of StatsMaker (include/Lintel/StatsMaker.hpp, src/StatsMaker.cpp). A
    definition is what make() constructs from it. The map statDefs is a list of
    pairs, the latest first; looking up a name with operator[] also stores a NULL
    for it, which is as good as nothing stored. Characters are bytes, a name has
    less than 2^31 of them. *)
From Coq Require Import List Arith ZArith Bool.
From Verif Require Import Common.
Import ListNotations.

Notation DASH := 45%Z.
Definition name_eqb (a b : list Z) : bool := if list_eq_dec Z.eq_dec a b then true else false.

Section M.
(** What make() constructs; [simple] is Stats, the default of a new definition
    (StatsMaker.hpp:66). *)
Variable D : Type.
Variable simple : D.

Definition defs : Type := list (list Z * D).
Fixpoint lookup (d : defs) (n : list Z) : option D :=
  match d with
  | [] => None
  | (m, k) :: r => if name_eqb m n then Some k else lookup r n
  end.

(** getCreateStatDef, StatsMaker.cpp:16-25, followed by an assignment of the
    definition: setModeSimple, setModeHistogram, setModeHistogramGroup and
    setModeSequence, StatsMaker.cpp:54-99 *)
Definition set_mode (d : defs) (n : list Z) (k : D) : defs := (n, k) :: d.

(** tmp.rfind("-") *)
Fixpoint rfind_from (s : list Z) (i : nat) : option nat :=
  match s with
  | [] => None
  | c :: r => match rfind_from r (S i) with Some j => Some j | None => if (c =? DASH)%Z then Some i else None end
  end.
Definition rfind (s : list Z) : option nat := rfind_from s 0.

(** while(i>=0 && tmp[i] == '-') i--; the result is i + 1. StatsMaker.cpp:39-41 *)
Fixpoint skip_back (s : list Z) (n : nat) : nat :=
  match n with
  | O => O
  | S i => if (nth i s 0 =? DASH)%Z then skip_back s i else n
  end.

(** The loop of getDefaultStatDef, StatsMaker.cpp:34-49 *)
Fixpoint search (fuel : nat) (d : defs) (tmp : list Z) : res (option D) :=
  match fuel with
  | O => Fuel
  | S fuel =>
    match rfind tmp with
    | None => Ok None
    | Some i =>
      let tmp := firstn (skip_back tmp (S i)) tmp in
      if (0 <? length tmp)%nat then
        match lookup d tmp with
        | Some k => Ok (Some k)
        | None => search fuel d tmp
        end
      else search fuel d tmp
    end
  end.

Definition DEFAULT : list Z := [100; 101; 102; 97; 117; 108; 116]%Z.   (* "default" *)
(** getDefaultStatDef, StatsMaker.cpp:27-51: the definition and the new map *)
Definition getDefaultStatDef (d : defs) (n : list Z) : res (D * defs) :=
  match lookup d n with
  | Some k => Ok (k, d)
  | None =>
    let! r := search (S (length n)) d n in
    match r with
    | Some k => Ok (k, d)
    | None => match lookup d DEFAULT with
              | Some k => Ok (k, d)
              | None => Ok (simple, set_mode d DEFAULT simple)
              end
    end
  end.

(** A program: setMode* and make calls; the definitions make used. *)
Inductive mop : Type := MSet (n : list Z) (k : D) | MMake (n : list Z).
Fixpoint m_run (d : defs) (l : list mop) : res (list D) :=
  match l with
  | [] => Ok []
  | MSet n k :: r => m_run (set_mode d n k) r
  | MMake n :: r =>
    let! (k, d) := getDefaultStatDef d n in
    let! ks := m_run d r in
    Ok (k :: ks)
  end.
End M.
Arguments lookup {D}.
Arguments MSet {D}.
Arguments MMake {D}.
