(** Specification of what memory the statistics classes hold. *)
From Coq Require Import List Arith Bool.
From Verif Require Import Common HistMem_Model.
Import ListNotations.

Definition arrays_of (c : cls) : nat :=
  match c with CStats => 0 | CUniform _ | CLog => 1 | CUniformAccum | CLogAccum => 2 | CSeries => 3 end.
Definition total (cs : list cls) : nat := list_sum (map arrays_of cs).
Definition is_series (c : cls) : bool := match c with CSeries => true | _ => false end.
Definition is_logaccum (c : cls) : bool := match c with CLogAccum => true | _ => false end.
(** The living objects by number, with their classes. *)
Definition world : Type := list (option (list cls)).
Definition needed (w : world) : nat := list_sum (map (fun o => match o with Some cs => total cs | None => 0 end) w).
(** A program on it, and how many arrays are lost on the way: one with each value outside of
    the range of a growable histogram, one with each StatsHistogramLogAccum deleted. The
    client must use living objects, and not delete one with a StatsSeries in it: else UB. *)
Definition wstep (w : world) (o : op) : res (world * nat) :=
  let at_ i := match nth_error w i with Some (Some cs) => Ok cs | _ => UB end in
  match o with
  | New cs => Ok (w ++ [Some cs], 0)
  | Add i j outside =>
      let! cs := at_ i in
      let! c := get cs j in
      Ok (w, match c with CUniform true => if outside then 1 else 0 | _ => 0 end)
  | Reset i => let! _ := at_ i in Ok (w, 0)
  | Delete i =>
      let! cs := at_ i in
      if existsb is_series cs then UB else Ok (upd w i None, length (filter is_logaccum cs))
  end.
(** The world after a program, and what was lost. *)
Fixpoint after (w : world) (lost : nat) (l : list op) : res (world * nat) :=
  match l with
  | [] => Ok (w, lost)
  | o :: l => let! (w, n) := wstep w o in after w (lost + n) l
  end.

(** The programs that the classes serve well: no StatsSeries, no StatsHistogramLogAccum, and
    no StatsHistogramUniform that is growable. *)
Definition plain (c : cls) : bool := match c with CSeries | CLogAccum | CUniform true => false | _ => true end.
Definition plain_op (o : op) : bool := match o with New cs => forallb plain cs | _ => true end.
