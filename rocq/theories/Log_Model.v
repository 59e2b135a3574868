(** Model of src/LintelLog.cpp and include/Lintel/LintelLog.hpp. category2id is an
    association list: HashMap is proved to be a finite map (C01) whose iteration visits
    every entry once (C03), and the loop over it here does not depend on the order. A call
    holding the mutex is one step. Text of messages, time stamps, streams and appenders
    that call back into the log (which deadlock on the mutex) are not modelled. *)
From Coq Require Import List Arith ZArith Bool.
From Verif Require Import Common StringUtil_Spec StringUtil_Model Log_Spec.
Import ListNotations.
Local Open Scope Z_scope.

(** LintelLog.hpp:290-302; [cap] is debug_levels.capacity(), [moves] counts how often its
    storage was allocated anew; generated_warning is the static of LintelLog.cpp:234. *)
Record log := mk_log {
  c2i : list (str * nat); levels : list Z; cap : Z; moves : nat;
  patterns : list (str * Z); apps : list nat; generated_warning : bool }.
(** LintelLog.cpp:285-288; complex_matches.capacity() stays 100. *)
Definition log_new : log := mk_log [] [] 4000 0 [] [] false.
Definition pattern_cap : Z := 100.

Fixpoint lookup (m : list (str * nat)) (c : str) : option nat :=
  match m with [] => None | (c', i) :: r => if str_eqb c' c then Some i else lookup r c end.
(** vector::resize to a larger size: new elements are 0, and the storage moves when it does
    not fit (to twice its size, or just what is needed). *)
Definition resize (s : log) (n : Z) : log :=
  let l := levels s ++ repeat 0 (Z.to_nat n - length (levels s)) in
  if n <=? cap s then mk_log (c2i s) l (cap s) (moves s) (patterns s) (apps s) (generated_warning s)
  else mk_log (c2i s) l (Z.max n (2 * len (levels s))) (S (moves s)) (patterns s) (apps s) (generated_warning s).
Definition set_level (s : log) (id : nat) (l : Z) : res log :=
  let! ls := put (levels s) id l in
  Ok (mk_log (c2i s) ls (cap s) (moves s) (patterns s) (apps s) (generated_warning s)).

(** LintelLog.cpp:257-263: the first match. *)
Fixpoint match_loop (ps : list (str * Z)) (category : str) (ret : nat) (s : log) : res log :=
  match ps with
  | [] => Ok s
  | (prefix, l) :: r => if prefixequal category prefix then set_level s ret l else match_loop r category ret s
  end.
(** LintelLog.cpp:244-266 *)
Definition lockedCategoryToId (s : log) (category : str) : res (nat * log) :=
  match lookup (c2i s) category with
  | Some id => Ok (id, s)
  | None =>
      let ret := length (levels s) in
      let! _ := invariant (Z.of_nat ret <? cap s) in
      let s := mk_log (c2i s ++ [(category, ret)]) (levels s) (cap s) (moves s) (patterns s) (apps s) (generated_warning s) in
      let s := resize s (Z.of_nat ret + 1) in
      let! x := get (levels s) ret in
      let! _ := invariant (x =? 0) in
      let! s := match_loop (patterns s) category ret s in
      Ok (ret, s)
  end.
(** LintelLog.cpp:214-217 *)
Fixpoint appenders_loop (l : list nat) (t : logtype) (m : text) : list output :=
  match l with [] => [] | a :: r => (Appender a, t, m) :: appenders_loop r t m end.
(** LintelLog.cpp:201-220 *)
Definition do_log (s : log) (t : logtype) (m : text) : list output :=
  match apps s with [] => [(Console, t, m)] | l => appenders_loop l t m end.
(** LintelLog.cpp:232-242; id * 5 is computed in uint32_t. *)
Definition maybeCategoryLimitWarning (s : log) (id : nat) : log * list output :=
  if cap s <=? (Z.of_nat id * 5) mod 2 ^ 32 / 4 then
    if generated_warning s then (s, [])
    else
      let s := mk_log (c2i s) (levels s) (cap s) (moves s) (patterns s) (apps s) true in
      (s, do_log s Warn (NearLimit (Z.of_nat id) (cap s)))
  else (s, []).
(** LintelLog.cpp:222-230 *)
Definition categoryToId (s : log) (category : str) : res (nat * log * list output) :=
  let! (ret, s) := lockedCategoryToId s category in
  let (s, o) := maybeCategoryLimitWarning s ret in
  Ok (ret, s, o).
(** LintelLog.cpp:29-34 *)
Definition wouldDebug (s : log) (category : str) (lvl : Z) : res (bool * log * list output) :=
  let! (id, s, o) := categoryToId s category in
  let! l := get (levels s) id in
  Ok (lvl <=? l, s, o).
(** LintelLog.cpp:36-42 *)
Definition reserveCategories (s : log) (max_categories : Z) : res log :=
  let! _ := invariant (len (levels s) <=? max_categories) in
  Ok (if cap s <? max_categories then mk_log (c2i s) (levels s) max_categories (S (moves s)) (patterns s) (apps s) (generated_warning s) else s).
(** LintelLog.cpp:68-73 *)
Fixpoint setKnownCategories (s : log) (cs : list str) : res (log * list output) :=
  match cs with
  | [] => Ok (s, [])
  | c :: r =>
      let! (_, s, o) := categoryToId s c in
      let! (s, o') := setKnownCategories s r in
      Ok (s, o ++ o')
  end.
(** LintelLog.cpp:100-105 *)
Fixpoint update_loop (m : list (str * nat)) (prefix : str) (lvl : Z) (s : log) : res log :=
  match m with
  | [] => Ok s
  | (c, id) :: r =>
      let! s := (if prefixequal c prefix then set_level s id lvl else Ok s) in
      update_loop r prefix lvl s
  end.
(** LintelLog.cpp:75-114 *)
Definition setDebugLevel (s : log) (category : str) (lvl : Z) : res (log * list output) :=
  let n := length category in
  if negb (Nat.eqb n 0) && (nth (n - 1) category 0 =? 42) then
    let! _ := invariant (len (patterns s) <? pattern_cap) in
    let! prefix := substr category 0 (len category - 1) in
    let s := mk_log (c2i s) (levels s) (cap s) (moves s) (patterns s ++ [(prefix, lvl)]) (apps s) (generated_warning s) in
    let! s := update_loop (c2i s) prefix lvl s in
    Ok (s, [])
  else
    let! (id, s) := lockedCategoryToId s category in
    let! _ := invariant (Z.of_nat id <? len (levels s)) in
    let! s := set_level s id lvl in
    Ok (maybeCategoryLimitWarning s id).
(** LintelLog.cpp:139-144 *)
Definition addAppender (s : log) (a : nat) : log :=
  mk_log (c2i s) (levels s) (cap s) (moves s) (patterns s) (apps s ++ [a]) (generated_warning s).

(** boost::lexical_cast<uint32_t>, used by stringToInteger (StringUtil.hpp:111-122): an
    optional sign and decimal digits, at most 2^32 - 1; a minus sign negates modulo 2^32. *)
Fixpoint cast_digits (s : str) (acc : Z) : res Z :=
  match s with
  | [] => Ok acc
  | c :: r => if (48 <=? c) && (c <=? 57) then
                let v := 10 * acc + (c - 48) in
                if v <? 2 ^ 32 then cast_digits r v else Abort
              else Abort
  end.
Definition lexical_cast_u32 (s : str) : res Z :=
  let digits r := match r with [] => Abort | _ => cast_digits r 0 end in
  match s with
  | 43 :: r => digits r
  | 45 :: r => let! v := digits r in Ok (- v mod 2 ^ 32)
  | _ => digits s
  end.
(** LintelLog.cpp:55-65; the level is converted from uint32_t to uint8_t. *)
Fixpoint parse_loop (s : log) (parts : list str) : res (log * list output) :=
  match parts with
  | [] => Ok (s, [])
  | p :: r =>
      let! subparts := split p [61] in
      let! (s, o) :=
        match subparts with
        | [_] => setDebugLevel s p 1
        | [n; v] => let! l := lexical_cast_u32 v in setDebugLevel s n (l mod 2 ^ 8)
        | _ => Abort
        end in
      let! (s, o') := parse_loop s r in
      Ok (s, o ++ o')
  end.
(** LintelLog.cpp:52-66 *)
Definition parseDebugString (s : log) (options : str) : res (log * list output) :=
  let! parts := split options [44] in
  parse_loop s parts.

(** One call. LintelLog.hpp:146-162 for the calls on a Category. *)
Definition log_step (s : log) (o : op) : res (log * (answer * list output)) :=
  match o with
  | OSet c l => let! (s, out) := setDebugLevel s c l in Ok (s, (Done, out))
  | OWould c l => let! (b, s, out) := wouldDebug s c l in Ok (s, (Yes b, out))
  | OCategory c => let! (id, s, out) := categoryToId s c in Ok (s, (Id id, out))
  | OKnown cs => let! (s, out) := setKnownCategories s cs in Ok (s, (Done, out))
  | OLevel id => let! l := get (levels s) id in Ok (s, (Level l, []))
  | OWouldId id lvl => let! l := get (levels s) id in Ok (s, (Yes (lvl <=? l), []))
  | OReserve n => let! s := reserveCategories s n in Ok (s, (Done, []))
  | OAppender a => Ok (addAppender s a, (Done, []))
  | OLog t m => Ok (s, (Done, do_log s t (Text m)))
  end.
