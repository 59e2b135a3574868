(** What a user of LintelLog sees: a history of settings and uses of categories, and the
    level each category has after it. *)
From Coq Require Import List Arith ZArith Bool.
From Verif Require Import Common StringUtil_Spec.
Import ListNotations.
Local Open Scope Z_scope.

(** A setting of a debug level, for one category or for all with a prefix ("prefix*");
    and a use of a category. *)
Inductive event := Setting (pattern : str) (level : Z) | Use (category : str).
Definition same (a b : str) : bool := if list_eq_dec Z.eq_dec a b then true else false.
(** The prefix of a pattern ending in an asterisk. *)
Definition wildcard (p : str) : option str :=
  match rev p with 42 :: q => Some (rev q) | _ => None end.
(** [p] is meant for category [c]. *)
Definition matches (p c : str) : bool :=
  match wildcard p with Some q => same (firstn (length q) c) q | None => same p c end.
Definition sets (c : str) (e : event) : bool := match e with Setting p _ => matches p c | Use _ => false end.
Definition level_set (e : option event) (default : Z) : Z := match e with Some (Setting _ l) => l | _ => default end.
(** The category an event uses: a setting uses the category it names, unless it is a prefix. *)
Definition used (e : event) : option str :=
  match e with Use c => Some c | Setting p _ => match wildcard p with Some _ => None | None => Some p end end.
Definition uses (c : str) (e : event) : bool := match used e with Some c' => same c' c | None => false end.

(** The history before the first use of [c], and from it on. *)
Fixpoint first_use (c : str) (h : list event) : list event * list event :=
  match h with
  | [] => ([], [])
  | e :: r => if uses c e then ([], h) else let (b, a) := first_use c r in (e :: b, a)
  end.
(** The level of a category: the latest setting since its first use that is meant for it;
    without one, the earliest such setting before it; without any, 0. *)
Definition level (h : list event) (c : str) : Z :=
  let (before, since) := first_use c h in
  level_set (find (sets c) (rev since)) (level_set (find (sets c) before) 0).
(** The level one expects: the latest setting meant for the category. *)
Definition latest (h : list event) (c : str) : Z := level_set (find (sets c) (rev h)) 0.

(** The categories in the order of their first use; the id of one is its position. *)
Definition add_known (k : list str) (e : event) : list str :=
  match used e with Some c => if existsb (same c) k then k else k ++ [c] | None => k end.
Definition known (h : list event) : list str := fold_left add_known h [].
Fixpoint position (c : str) (k : list str) : nat :=
  match k with [] => O | c' :: r => if same c' c then O else S (position c r) end.
Definition wildcards (h : list event) : nat :=
  length (filter (fun e => match e with Setting p _ => match wildcard p with Some _ => true | None => false end | Use _ => false end) h).

(** Messages and where they go. *)
Inductive logtype := Report | Debug | Info | Warn | Error.
Inductive text := Text (s : str) | NearLimit (id capacity : Z).
Inductive dest := Console | Appender (a : nat).
Definition output : Type := dest * logtype * text.
(** Every appender gets the message once, in the order they were added; the console when
    there is none. *)
Definition deliver (appenders : list nat) (t : logtype) (m : text) : list output :=
  match appenders with [] => [(Console, t, m)] | _ => map (fun a => (Appender a, t, m)) appenders end.

(** The calls, and what they return. *)
Inductive op :=
| OSet (pattern : str) (level : Z)        (* setDebugLevel *)
| OWould (category : str) (level : Z)     (* wouldDebug(string, level) *)
| OCategory (category : str)              (* Category(category) *)
| OKnown (categories : list str)          (* setKnownCategories *)
| OLevel (id : nat)                       (* getDebugLevel(Category) *)
| OWouldId (id : nat) (level : Z)         (* wouldDebug(Category, level) *)
| OReserve (max : Z)                      (* reserveCategories *)
| OAppender (a : nat)                     (* addAppender *)
| OLog (t : logtype) (m : str).           (* log *)
Inductive answer := Done | Yes (b : bool) | Id (n : nat) | Level (l : Z).

Record spec := mk_spec { hist : list event; room : Z; appenders : list nat; warned : bool }.
Definition spec_new : spec := mk_spec [] 4000 [] false.
(** An event that uses category [c]: refused when it is new and there is no room for it;
    a warning, once, when four fifths of the room is used. *)
Definition spec_use (s : spec) (e : event) (c : str) : res (spec * list output) :=
  if existsb (same c) (known (hist s)) || (Z.of_nat (length (known (hist s))) <? room s) then
    let h := hist s ++ [e] in
    let id := Z.of_nat (position c (known h)) in
    let near := (4 * room s <=? 5 * id) && negb (warned s) in
    Ok (mk_spec h (room s) (appenders s) (warned s || near), if near then deliver (appenders s) Warn (NearLimit id (room s)) else [])
  else Abort.
Fixpoint spec_uses (s : spec) (cs : list str) : res (spec * list output) :=
  match cs with
  | [] => Ok (s, [])
  | c :: r => let! (s, o) := spec_use s (Use c) c in let! (s, o') := spec_uses s r in Ok (s, o ++ o')
  end.
Definition spec_level (s : spec) (id : nat) : res Z :=
  match nth_error (known (hist s)) id with Some c => Ok (level (hist s) c) | None => UB end.
Definition spec_step (s : spec) (o : op) : res (spec * (answer * list output)) :=
  match o with
  | OSet p l =>
      match wildcard p with
      | Some _ => if (wildcards (hist s) <? 100)%nat then Ok (mk_spec (hist s ++ [Setting p l]) (room s) (appenders s) (warned s), (Done, [])) else Abort
      | None => let! (s, o) := spec_use s (Setting p l) p in Ok (s, (Done, o))
      end
  | OWould c l => let! (s, o) := spec_use s (Use c) c in Ok (s, (Yes (l <=? level (hist s) c), o))
  | OCategory c => let! (s, o) := spec_use s (Use c) c in Ok (s, (Id (position c (known (hist s))), o))
  | OKnown cs => let! (s, o) := spec_uses s cs in Ok (s, (Done, o))
  | OLevel id => let! l := spec_level s id in Ok (s, (Level l, []))
  | OWouldId id l => let! l' := spec_level s id in Ok (s, (Yes (l <=? l'), []))
  | OReserve n =>
      (* far more categories than memory can hold: nothing claimed *)
      if 800000000 <? n then UB
      else if Z.of_nat (length (known (hist s))) <=? n then Ok (mk_spec (hist s) (Z.max (room s) n) (appenders s) (warned s), (Done, []))
      else Abort
  | OAppender a => Ok (mk_spec (hist s) (room s) (appenders s ++ [a]) (warned s), (Done, []))
  | OLog t m => Ok (s, (Done, deliver (appenders s) t (Text m)))
  end.

(** The text of one setting given to parseDebugString: a name alone stands for level 1,
    or name=number. *)
Inductive item := Name (n : str) | NameLevel (n : str) (digits : list Z).
Definition number (digits : list Z) : Z := fold_left (fun a d => 10 * a + d) digits 0.
Definition item_text (i : item) : str :=
  match i with Name n => n | NameLevel n ds => n ++ [61] ++ map (Z.add 48) ds end.
Definition item_name (i : item) : str := match i with Name n => n | NameLevel n _ => n end.
Definition item_level (i : item) : Z := match i with Name _ => 1 | NameLevel _ ds => number ds end.
Definition item_ok (i : item) : Prop :=
  ~ In 44 (item_name i) /\ ~ In 61 (item_name i) /\
  match i with Name _ => True | NameLevel _ ds => ds <> [] /\ Forall (fun d => 0 <= d <= 9) ds end.
