(** Specification of the ownership of the statistics of a HashTupleStats or of the
    cube of a StatsCube: which statistics object a key has, what it holds, and which
    objects exist. Independent of the implementation model. *)
From Coq Require Import List Arith Bool Permutation Sorting.Sorted.
From Verif Require Import Common HashMap_Spec.
Import ListNotations.

Section Spec.
Context {K S : Type}.
Variable keq : K -> K -> bool.              (* equality of keys *)
Variable klt : K -> K -> bool.              (* operator< of keys *)
Variable fresh : S.                         (* what the factory makes *)
Variable checked : bool.                    (* a null statistic is asserted against *)

(** What a call of the client's factory does *)
Inductive made := Made | Threw | Null.
(** A walk function: given a key and a statistic it leaves a changed statistic, and
    returns normally (false) or throws (true). *)
Definition walker : Type := K -> S -> S * bool.
(** A prune predicate may have state: its answer depends on the calls before. None
    means that it throws. *)
Definition pruner : Type := list (K * bool) -> K -> option bool.

Inductive top : Type :=
| TTouch (k : K) (g : S -> S) (m : made)    (* s = &t[k]; change *s by g; if the factory is needed it does m *)
| TDeref (a : nat)                          (* read a statistic through a reference kept from before *)
| TSize                                     (* size() *)
| TLive                                     (* number of statistics objects that exist *)
| TWalk (f : walker)                        (* walk(f) *)
| TWalkOrdered (f : walker)                 (* walkOrdered(f) *)
| TWalkZeros (ks : list K) (z : S -> S) (m : made) (f : walker)   (* walkZeros(f) going through the keys ks; z is applied to the empty statistic *)
| TPrune (p : pruner)                       (* prune(p) *)
| TClear.                                   (* clear() *)

(** Objects are named by the order in which they are made. *)
Definition row : Type := K * (nat * S).
Inductive tout : Type :=
| ONone
| OThrown                                   (* an exception reaches the caller *)
| OStat (a : nat) (s : S)                   (* the object and what it holds *)
| ONum (n : nat)
| ORows (l : list row) (thrown : bool)      (* the calls of a walk function *)
| OCalls (l : list (K * bool)) (thrown : bool).   (* the calls of a prune function and its answers *)

(** The state: an entry is a key with its statistic, or with none when the factory
    threw. [leaked]: objects that nothing owns. *)
Definition entry : Type := K * option (nat * S).
Record tstate := mk_ts { entries : list entry; next : nat; leaked : list (nat * S) }.

Definition objs (m : list entry) : list (nat * S) :=
  flat_map (fun e => match snd e with Some o => [o] | None => [] end) m.
Definition existing (s : tstate) : list (nat * S) := objs (entries s) ++ leaked s.

(** The calls of a walk function over entries taken in the order [l]: entries
    afterwards, calls, thrown. None when it comes to an entry without a statistic. *)
Fixpoint visit (f : walker) (l : list entry) : option (list entry * list row * bool) :=
  match l with
  | [] => Some ([], [], false)
  | (_, None) :: _ => None
  | (k, Some (a, s)) :: r =>
    let (s', thrown) := f k s in
    if thrown then Some ((k, Some (a, s')) :: r, [(k, (a, s))], true)
    else match visit f r with
         | None => None
         | Some (r', rows, th) => Some ((k, Some (a, s')) :: r', (k, (a, s)) :: rows, th)
         end
  end.
(** The same for a zero walk: the statistic [(a, z)] stands for keys without entry. *)
Fixpoint zvisit (f : walker) (ks : list K) (m : list entry) (a : nat) (z : S) : option (list entry * S * list row * bool) :=
  match ks with
  | [] => Some (m, z, [], false)
  | k :: r =>
    match mfind keq k m with
    | None =>
      let (z', thrown) := f k z in
      if thrown then Some (m, z', [(k, (a, z))], true)
      else match zvisit f r m a z' with
           | None => None
           | Some (m', z', rows, th) => Some (m', z', (k, (a, z)) :: rows, th)
           end
    | Some None => None
    | Some (Some (b, s)) =>
      let (s', thrown) := f k s in
      let m' := mupdate keq k (Some (b, s')) m in
      if thrown then Some (m', z, [(k, (b, s))], true)
      else match zvisit f r m' a z with
           | None => None
           | Some (m', z', rows, th) => Some (m', z', (k, (b, s)) :: rows, th)
           end
    end
  end.

(** Was the key answered true? *)
Definition chosen (log : list (K * bool)) (k : K) : bool := existsb (fun c => keq (fst c) k && snd c) log.
(** A pruning of [m] by [p] with the calls [log], leaving [m']. *)
Definition pruned (p : pruner) (m : list entry) (log : list (K * bool)) (thrown : bool) (m' : list entry) : Prop :=
  (* the answers are the predicate's *)
  (forall l1 k b l2, log = l1 ++ (k, b) :: l2 -> p l1 k = Some b)
  (* only keys of entries are asked about, and not again after they are removed *)
  /\ (forall l1 k b l2, log = l1 ++ (k, b) :: l2 -> In k (map fst m) /\ chosen l1 k = false)
  (* the entries answered true go, the others stay *)
  /\ Permutation m' (filter (fun e => negb (chosen log (fst e))) m)
  (* and each of those was answered false, unless the predicate threw *)
  /\ (if thrown then exists k, In k (map fst m') /\ p log k = None
      else forall k, In k (map fst m') -> In (k, false) log).

(** One operation: what it may do. UB: undefined behaviour. *)
Inductive tstep : tstate -> top -> res (tout * tstate) -> Prop :=
| s_touch_old : forall m n l k g f a s, mfind keq k m = Some (Some (a, s)) ->
    tstep (mk_ts m n l) (TTouch k g f) (Ok (OStat a (g s), mk_ts (mupdate keq k (Some (a, g s)) m) n l))
| s_touch_new : forall m n l k g, mfind keq k m = None ->
    tstep (mk_ts m n l) (TTouch k g Made) (Ok (OStat n (g fresh), mk_ts (minsert k (Some (n, g fresh)) m) (n + 1) l))
| s_touch_again : forall m n l k g, mfind keq k m = Some None ->
    tstep (mk_ts m n l) (TTouch k g Made) (Ok (OStat n (g fresh), mk_ts (mupdate keq k (Some (n, g fresh)) m) (n + 1) l))
| s_touch_threw : forall m n l k g, mfind keq k m = None ->
    tstep (mk_ts m n l) (TTouch k g Threw) (Ok (OThrown, mk_ts (minsert k None m) n l))
| s_touch_threw_again : forall m n l k g, mfind keq k m = Some None ->
    tstep (mk_ts m n l) (TTouch k g Threw) (Ok (OThrown, mk_ts m n l))
| s_touch_null : forall m n l k g, mfind keq k m = None \/ mfind keq k m = Some None ->
    tstep (mk_ts m n l) (TTouch k g Null) (if checked then Abort else UB)
| s_deref : forall s a x, In (a, x) (existing s) -> tstep s (TDeref a) (Ok (OStat a x, s))
| s_dangling : forall s a, ~ In a (map fst (existing s)) -> tstep s (TDeref a) UB
| s_size : forall s, tstep s TSize (Ok (ONum (length (entries s)), s))
| s_live : forall s, tstep s TLive (Ok (ONum (length (existing s)), s))
| s_walk : forall m n l f o m' rows th, Permutation m o -> visit f o = Some (m', rows, th) ->
    tstep (mk_ts m n l) (TWalk f) (Ok (ORows rows th, mk_ts m' n l))
| s_walk_null : forall m n l f o, Permutation m o -> visit f o = None -> tstep (mk_ts m n l) (TWalk f) UB
| s_ordered : forall m n l f o m' rows th, Permutation m o -> StronglySorted (fun a b => klt a b = true) (map fst o) -> visit f o = Some (m', rows, th) ->
    tstep (mk_ts m n l) (TWalkOrdered f) (Ok (ORows rows th, mk_ts m' n l))
| s_ordered_null : forall m n l f o, Permutation m o -> StronglySorted (fun a b => klt a b = true) (map fst o) -> visit f o = None ->
    tstep (mk_ts m n l) (TWalkOrdered f) UB
| s_zeros : forall m n l ks z f m' z' rows, zvisit f ks m n (z fresh) = Some (m', z', rows, false) ->
    tstep (mk_ts m n l) (TWalkZeros ks z Made f) (Ok (ORows rows false, mk_ts m' (n + 1) l))
| s_zeros_leak : forall m n l ks z f m' z' rows, zvisit f ks m n (z fresh) = Some (m', z', rows, true) ->
    tstep (mk_ts m n l) (TWalkZeros ks z Made f) (Ok (ORows rows true, mk_ts m' (n + 1) ((n, z') :: l)))
| s_zeros_nullentry : forall m n l ks z f, zvisit f ks m n (z fresh) = None -> tstep (mk_ts m n l) (TWalkZeros ks z Made f) UB
| s_zeros_threw : forall s ks z f, tstep s (TWalkZeros ks z Threw f) (Ok (OThrown, s))
| s_zeros_null : forall s ks z f, tstep s (TWalkZeros ks z Null f) UB
| s_prune : forall m n l p log th m', pruned p m log th m' -> tstep (mk_ts m n l) (TPrune p) (Ok (OCalls log th, mk_ts m' n l))
| s_clear : forall m n l, tstep (mk_ts m n l) TClear (Ok (ONone, mk_ts [] n l)).

(** A history, up to the first operation that aborts or is undefined; the last
    component is the state after it when there is none. *)
Inductive thist : tstate -> list top -> list (res tout) -> option tstate -> Prop :=
| h_nil : forall s, thist s [] [] (Some s)
| h_ok : forall s o out s' r outs e, tstep s o (Ok (out, s')) -> thist s' r outs e -> thist s (o :: r) (Ok out :: outs) e
| h_abort : forall s o r, tstep s o Abort -> thist s (o :: r) [Abort] None
| h_undefined : forall s o r, tstep s o UB -> thist s (o :: r) [UB] None.

(** Operations whose callbacks behave: the factory makes a statistic each time, and
    no walk function throws in a zero walk. *)
Definition well (o : top) : Prop :=
  match o with
  | TTouch _ _ m => m = Made
  | TWalkZeros _ _ m f => m = Made /\ forall k s, snd (f k s) = false
  | _ => True
  end.
(** Operations that do not use a reference kept from before *)
Definition no_deref (o : top) : Prop := match o with TDeref _ => False | _ => True end.
(** Operations that remove no entry *)
Definition keeps (o : top) : Prop := match o with TPrune _ | TClear => False | _ => True end.
End Spec.
Arguments top : clear implicits.
Arguments tout : clear implicits.
Arguments tstate : clear implicits.
Arguments walker : clear implicits.
Arguments pruner : clear implicits.
Arguments row : clear implicits.
Arguments entry : clear implicits.
