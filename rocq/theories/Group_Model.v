(** Model of StatsSeriesGroup (include/Lintel/StatsSeriesGroup.hpp,
    src/StatsSeriesGroup.cpp) and StatsRW (include/Lintel/StatsRW.hpp,
    src/StatsRW.cpp) over an abstract arithmetic. A statistics object of any other
    class is modelled by the (value, time) pairs it has been given since it was
    made or reset: that determines its state for every class in Lintel. Text
    output is not modelled, except which parts StatsRW::printRome prints. *)
From Coq Require Import List Arith ZArith QArith.
From Verif Require Import Common Arith Stats_Model.
Import ListNotations.
Local Open Scope Z_scope.

(** StatsSeriesGroup.hpp:48-51, with the base class; a NULL in [stats] is None. *)
Record group (A : arith) : Type := mkGroup {
  g_base : stats A;
  g_subs : list (option (list (A * A)));
  interval : A;
  cur_interval_start : A;
  last_time : A;
  first_time : A }.
Arguments mkGroup {A}.
Arguments g_base {A}.
Arguments g_subs {A}.
Arguments interval {A}.
Arguments cur_interval_start {A}.
Arguments last_time {A}.
Arguments first_time {A}.

Section M.
Variable A : arith.

(** Double::NaN and the test x != x *)
Definition nan : A := ndiv (of_int 0) (of_int 0).
Definition is_nan (x : A) : bool := negb (neq x x).

(** Constructor, StatsSeriesGroup.cpp:16-24 *)
Definition g_new (i : A) : res (group A) :=
  let! _ := invariant (is_nan nan) in
  Ok (mkGroup (st_new A) [] i nan nan nan).

(** add(value) and add(Stats), StatsSeriesGroup.cpp:26-36: FATAL_ERROR *)
Definition g_add (g : group A) (value : A) : res (group A) := Abort.
Definition g_merge (g : group A) (o : stats A) : res (group A) := Abort.

(** setSeriesStart with addStat, StatsSeriesGroup.cpp:38-46 and 82-94; the object
    made by StatsMaker starts empty. *)
Definition setSeriesStart (g : group A) (t : A) : res (group A) :=
  let! _ := invariant (is_nan (last_time g)) in
  Ok (mkGroup (g_base g) (g_subs g ++ [Some []]) (interval g) t t t).

(** The loop over the empty intervals, StatsSeriesGroup.cpp:61-65 *)
Fixpoint gap (fuel : nat) (i t cur : A) (subs : list (option (list (A * A)))) : res (A * list (option (list (A * A)))) :=
  match fuel with
  | O => Fuel
  | S fuel => if nle i (nsub t cur) then gap fuel i t (nadd cur i) (subs ++ [None]) else Ok (cur, subs)
  end.

(** addTimeSeq, StatsSeriesGroup.cpp:48-70 *)
Definition g_addTimeSeq (fuel : nat) (g : group A) (value t : A) : res (group A) :=
  let! g := (if is_nan (last_time g) then setSeriesStart g t else Ok g) in
  let! _ := invariant (nle (last_time g) t) in
  let! (cur, subs) :=
    (if nle (interval g) (nsub t (cur_interval_start g)) then
       let! (cur, subs) := gap fuel (interval g) t (nadd (cur_interval_start g) (interval g)) (g_subs g) in
       Ok (cur, subs ++ [Some []])
     else Ok (cur_interval_start g, g_subs g)) in
  let n := (length subs - 1)%nat in
  let! sub := get subs n in
  match sub with
  | None => UB
  | Some l =>
    let! subs := put subs n (Some (l ++ [(value, t)])) in
    Ok (mkGroup (st_add A (g_base g) value) subs (interval g) cur t (first_time g))
  end.

(** reset, StatsSeriesGroup.cpp:72-80; it does not call Stats::reset *)
Definition g_reset (g : group A) : group A := mkGroup (g_base g) [] (interval g) nan nan nan.

(** getSeriesLength and getSeriesStat, StatsSeriesGroup.hpp:34-39 *)
Definition getSeriesLength (g : group A) : nat := length (g_subs g).
Definition getSeriesStat (g : group A) (n : Z) : res (list (A * A)) :=
  let! _ := invariant ((0 <=? n) && (n <? Z.of_nat (length (g_subs g)))) in
  let! s := get (g_subs g) (Z.to_nat n) in
  match s with Some l => Ok l | None => UB end.

(** count() of the base class *)
Definition g_count (g : group A) : Z := st_count A (g_base g).

Fixpoint g_feed (fuel : nat) (g : group A) (l : list (A * A)) : res (group A) :=
  match l with
  | [] => Ok g
  | (v, t) :: r => let! g := g_addTimeSeq fuel g v t in g_feed fuel g r
  end.

(** ** StatsRW *)
(** A statistics object: a StatsSeriesGroup or any other class. *)
Inductive obj : Type := Plain (l : list (A * A)) | Group (g : group A).
(** the virtual functions addTimeSeq, reset and count *)
Definition o_add (fuel : nat) (o : obj) (v t : A) : res obj :=
  match o with
  | Plain l => Ok (Plain (l ++ [(v, t)]))
  | Group g => let! g := g_addTimeSeq fuel g v t in Ok (Group g)
  end.
Definition o_reset (o : obj) : obj :=
  match o with Plain _ => Plain [] | Group g => Group (g_reset g) end.
Definition o_count (o : obj) : Z :=
  match o with Plain l => Z.of_nat (length l) mod 2 ^ 64 | Group g => g_count g end.
Definition is_group (o : option obj) : bool := match o with Some (Group _) => true | _ => false end.
(** if (p) p->f(), for a pointer that may be NULL *)
Definition opt (o : option obj) (f : obj -> res obj) : res (option obj) :=
  match o with None => Ok None | Some o => let! o := f o in Ok (Some o) end.
(** p->f() *)
Definition deref {B} (o : option obj) (f : obj -> res B) : res B :=
  match o with None => UB | Some o => f o end.

(** StatsRW.hpp:21 and 38-42 *)
Inductive modeT : Type := Read | Write | All.
Record rw : Type := mkRW {
  rd : option obj;
  wr : option obj;
  al : option obj;
  autoAll : bool;
  allStatsSeriesGroup : bool }.

(** Constructor and finish_init, StatsRW.cpp:28-34 and 43-54 *)
Definition rw_new (r w a : option obj) : rw :=
  mkRW r w a true (is_group r && is_group w && is_group a).

Definition o_start (o : obj) (t : A) : res obj :=
  match o with Plain _ => UB | Group g => let! g := setSeriesStart g t in Ok (Group g) end.

(** add, StatsRW.cpp:56-87 *)
Definition rw_add (fuel : nat) (s : rw) (value : A) (m : modeT) (t : A) : res rw :=
  let! s :=
    (if allStatsSeriesGroup s then
       let! cr := deref (rd s) (fun o => Ok (o_count o)) in
       let! cw := deref (wr s) (fun o => Ok (o_count o)) in
       if (cr =? 0) && (cw =? 0) then
         let! r := deref (rd s) (fun o => o_start o t) in
         let! w := deref (wr s) (fun o => o_start o t) in
         let! a := deref (al s) (fun o => o_start o t) in
         Ok (mkRW (Some r) (Some w) (Some a) (autoAll s) (allStatsSeriesGroup s))
       else Ok s
     else Ok s) in
  let! s :=
    match m with
    | Read => let! r := opt (rd s) (fun o => o_add fuel o value t) in Ok (mkRW r (wr s) (al s) (autoAll s) (allStatsSeriesGroup s))
    | Write => let! w := opt (wr s) (fun o => o_add fuel o value t) in Ok (mkRW (rd s) w (al s) (autoAll s) (allStatsSeriesGroup s))
    | All =>
      let! a := (if autoAll s then opt (al s) (fun o => Ok (o_reset o)) else Ok (al s)) in
      let! a := opt a (fun o => o_add fuel o value t) in
      Ok (mkRW (rd s) (wr s) a false (allStatsSeriesGroup s))
    end in
  if autoAll s then
    let! a := opt (al s) (fun o => o_add fuel o value t) in
    Ok (mkRW (rd s) (wr s) a (autoAll s) (allStatsSeriesGroup s))
  else Ok s.

Record sample : Type := mkSample { s_mode : modeT; s_value : A; s_time : A }.
Fixpoint rw_run (fuel : nat) (s : rw) (l : list sample) : res rw :=
  match l with
  | [] => Ok s
  | x :: r => let! s := rw_add fuel s (s_value x) (s_mode x) (s_time x) in rw_run fuel s r
  end.

(** Which objects printRome prints, StatsRW.cpp:112-145: None for "all alone, as if
    there were no StatsRW", otherwise the list of sections. *)
Definition rw_sections (s : rw) : res (option (list modeT)) :=
  let! cr := deref (rd s) (fun o => Ok (o_count o)) in
  let! alone :=
    (if cr =? 0 then
       let! cw := deref (wr s) (fun o => Ok (o_count o)) in
       if cw =? 0 then let! ca := deref (al s) (fun o => Ok (o_count o)) in Ok (0 <? ca) else Ok false
     else Ok false) in
  if alone then Ok None
  else
    let! cw := deref (wr s) (fun o => Ok (o_count o)) in
    let! ca := deref (al s) (fun o => Ok (o_count o)) in
    Ok (Some ((if cr =? 0 then [] else [Read]) ++ (if cw =? 0 then [] else [Write]) ++ (if ca =? 0 then [] else [All]))).
End M.
Arguments Plain {A}.
Arguments Group {A}.
Arguments mkRW {A}.
Arguments rd {A}.
Arguments wr {A}.
Arguments al {A}.
Arguments autoAll {A}.
Arguments allStatsSeriesGroup {A}.
Arguments mkSample {A}.
Arguments s_mode {A}.
Arguments s_value {A}.
Arguments s_time {A}.
