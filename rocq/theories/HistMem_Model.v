(** Model of the arrays that the statistics classes allocate (src/StatsHistogram.cpp and
    src/StatsSeries.cpp): which constructor and which add allocates, which destructor gives
    back what. What the arrays hold is in the models of the histograms. *)
From Coq Require Import List Arith Bool.
From Verif Require Import Common.
Import ListNotations.

(** The arrays by address, in the order of the new[] that made them: false after delete[]. *)
Definition heap : Type := list bool.
(** NULL is None. *)
Definition ptr : Type := option nat.
Definition alloc (h : heap) : heap * ptr := (h ++ [true], Some (length h)).
(** delete[] *)
Definition delete_array (h : heap) (p : ptr) : res heap :=
  match p with
  | None => Ok h
  | Some a => match nth_error h a with Some true => Ok (upd h a false) | _ => UB end
  end.
(** delete without [], of something that new[] made *)
Definition delete_single (h : heap) (p : ptr) : res heap :=
  match p with None => Ok h | Some _ => UB end.

(** The class of an object; of a StatsHistogramUniform, whether it was constructed growable. *)
Inductive cls : Type := CStats | CUniform (growable : bool) | CLog | CUniformAccum | CLogAccum | CSeries.
(** The members that are pointers *)
Record part : Type := mk_part { kind : cls; bins : ptr; val_bins : ptr; samples : ptr; product : ptr; firstsamples : ptr }.

(** The constructors: Stats.cpp:26, StatsHistogram.cpp:42-65, 347-377, 565-576 (after that of
    StatsHistogramUniform), 716-726 (after that of StatsHistogramLog), StatsSeries.cpp:49-63. *)
Definition construct (h : heap) (c : cls) : heap * part :=
  match c with
  | CStats => (h, mk_part c None None None None None)
  | CUniform _ | CLog => let '(h, b) := alloc h in (h, mk_part c b None None None None)
  | CUniformAccum | CLogAccum =>
      let '(h, b) := alloc h in
      let '(h, v) := alloc h in
      (h, mk_part c b v None None None)
  | CSeries =>
      let '(h, s) := alloc h in
      let '(h, p) := alloc h in
      let '(h, f) := alloc h in
      (h, mk_part c None None s p f)
  end.
(** The destructors, the one of the class before that of its base: StatsHistogram.cpp:68-71,
    380-383, 578-581, 728-731 (which deletes bins, not val_bins), StatsSeries.cpp:65-74. *)
Definition destroy (h : heap) (p : part) : res heap :=
  match kind p with
  | CStats => Ok h
  | CUniform _ | CLog => delete_array h (bins p)
  | CUniformAccum =>
      let! h := delete_array h (val_bins p) in
      delete_array h (bins p)
  | CLogAccum =>
      let! h := delete_array h (bins p) in
      (* bins = NULL, then ~StatsHistogramLog *)
      delete_array h None
  | CSeries =>
      let! h := delete_single h (samples p) in
      let! h := delete_single h (product p) in
      delete_single h (firstsamples p)
  end.
(** add, StatsHistogram.cpp:102-150: [outside] says that the value is below bin_low or not
    below bin_high. The old array is not deleted. The add of the other classes allocate
    nothing (StatsHistogramUniformAccum::add, lines 593-636, never grows). *)
Definition add (h : heap) (p : part) (outside : bool) : heap * part :=
  match kind p with
  | CUniform true =>
      if outside
      then let '(h, b) := alloc h in (h, mk_part (kind p) b (val_bins p) (samples p) (product p) (firstsamples p))
      else (h, p)
  | _ => (h, p)
  end.

Fixpoint construct_all (h : heap) (cs : list cls) : heap * list part :=
  match cs with
  | [] => (h, [])
  | c :: cs => let '(h, p) := construct h c in let '(h, ps) := construct_all h cs in (h, p :: ps)
  end.
Fixpoint destroy_all (h : heap) (ps : list part) : res heap :=
  match ps with [] => Ok h | p :: ps => let! h := destroy h p in destroy_all h ps end.

(** The objects of a program by number, None after delete. One object is the list of its
    parts: one for a plain object; for a StatsHistogramGroup (StatsHistogram.cpp:811-878) one
    for each range. *)
Record state : Type := mk_state { arrays : heap; objs : list (option (list part)) }.
Inductive op : Type :=
| New (cs : list cls)
| Add (i j : nat) (outside : bool)  (* the value goes to part [j] of object [i] *)
| Reset (i : nat)                   (* allocates nothing: 74-80, 386-392, 583-587, 733-737, 880-887 *)
| Delete (i : nat).
Definition living (s : state) (i : nat) : res (list part) :=
  match nth_error (objs s) i with Some (Some ps) => Ok ps | _ => UB end.
Definition step (s : state) (o : op) : res (state * unit) :=
  match o with
  | New cs => let '(h, ps) := construct_all (arrays s) cs in Ok (mk_state h (objs s ++ [Some ps]), tt)
  | Add i j outside =>
      let! ps := living s i in
      let! p := get ps j in
      let '(h, p) := add (arrays s) p outside in
      Ok (mk_state h (upd (objs s) i (Some (upd ps j p))), tt)
  | Reset i => let! _ := living s i in Ok (s, tt)
  | Delete i =>
      let! ps := living s i in
      let! h := destroy_all (arrays s) ps in
      Ok (mk_state h (upd (objs s) i None), tt)
  end.
Definition final (l : list op) : res state := exec_ops step (mk_state [] []) l.
(** The arrays that were not given back *)
Definition held (s : state) : nat := length (filter (fun b => b) (arrays s)).
