(** Specification of HashTupleStats and StatsCube: base data is a finite map from
    tuples to statistics, the cube a finite map from patterns to statistics. A
    pattern gives each coordinate a value or None for any. Independent of the
    implementation model. *)
From Coq Require Import List Arith NArith Bool.
From Verif Require Import Common.
Import ListNotations.

Section Spec.
Context {A S X : Type}.
Variable eqb : A -> A -> bool.              (* == on a coordinate *)
Variable fresh : S.                         (* what the stats factory makes *)
Variable add : S -> X -> S.                 (* StatsT::add(double) *)
Variable zero : X.                          (* the value 0 *)
Variable cube_add : S -> S -> S.            (* the CubeStatsAddFn *)
Variable opt : bool -> list (option A) -> bool.  (* the OptionalCubeFn *)

Definition tuple : Type := list A.
Definition pat : Type := list (option A).

(** The pattern fits the tuple. *)
Fixpoint fits (p : pat) (k : tuple) : bool :=
  match p, k with
  | [], [] => true
  | None :: p', _ :: k' => fits p' k'
  | Some x :: p', y :: k' => eqb x y && fits p' k'
  | _, _ => false
  end.
Definition has_any (p : pat) : bool := existsb (fun x => match x with None => true | _ => false end) p.
(** Entries for this pattern are wanted. *)
Definition wanted (p : pat) : bool := opt (has_any p) p.

(** What becomes of the entry of one pattern when the rows [o] are cubed. *)
Fixpoint gather (p : pat) (o : list (tuple * S)) (e : option S) : option S :=
  match o with
  | [] => e
  | (k, v) :: r => gather p r (if fits p k && wanted p then Some (cube_add (match e with Some s => s | None => fresh end) v) else e)
  end.

(** [l] lists the finite map [f], each key once. *)
Definition lists {K V} (f : K -> option V) (l : list (K * V)) : Prop :=
  NoDup (map fst l) /\ forall k v, In (k, v) l <-> f k = Some v.
(** All combinations of values seen, with the stored statistics or the empty one. *)
Definition lists_zeros (n : nat) (base : tuple -> option S) (empty : S) (l : list (tuple * S)) : Prop :=
  NoDup (map fst l) /\
  forall k v, In (k, v) l <->
    (length k = n /\ (forall i x, nth_error k i = Some x -> exists k' s, base k' = Some s /\ nth_error k' i = Some x)
     /\ v = match base k with Some s => s | None => empty end).

Inductive cop : Type :=
| CAdd (k : tuple) (x : X)                  (* add(k, x) *)
| CAddToCube (k : tuple) (s : S)            (* addToCube(k, s) *)
| CCube                                     (* cube() *)
| CZeroCube (count_zeros : bool)            (* zeroCube(count_zeros) *)
| CGet (p : pat)                            (* getCubeEntry(p) *)
| CWalk                                     (* walk *)
| CSize                                     (* size() *)
| CPrune (q : pat -> bool)                  (* prune(q) *)
| CClear (base_too : bool)                  (* clear(base_too) *)
| CBaseGet (k : tuple)                      (* base_data[k] *)
| CBaseWalk                                 (* base_data.walk *)
| CWalkZeros (count_zeros : bool)           (* base_data.walkZeros *)
| CBaseSize                                 (* base_data.size() *)
| CBasePrune (q : tuple -> bool).           (* base_data.prune(q) *)
Inductive cout : Type :=
| CNone | CStat (s : S) | CNum (n : nat) | CRows (l : list (tuple * S)) | CEntries (l : list (pat * S)).

Definition cstate : Type := ((tuple -> option S) * (pat -> option S))%type.
Definition val (e : option S) : S := match e with Some s => s | None => fresh end.
Definition empty_of (count_zeros : bool) : S := if count_zeros then add fresh zero else fresh.
Variable n : nat.                           (* the arity *)

(** One operation; functions are compared point by point. *)
Inductive cstep : cstate -> cop -> cout -> cstate -> Prop :=
| s_add (b : tuple -> option S) (c : pat -> option S) k x (b' : tuple -> option S) : b' k = Some (add (val (b k)) x) -> (forall k', k' <> k -> b' k' = b k') ->
    cstep (b, c) (CAdd k x) CNone (b', c)
| s_to_cube (b : tuple -> option S) (c : pat -> option S) k s (c' : pat -> option S) : (forall p, c' p = gather p [(k, s)] (c p)) ->
    cstep (b, c) (CAddToCube k s) CNone (b, c')
| s_cube (b : tuple -> option S) (c : pat -> option S) o (c' : pat -> option S) : lists b o -> (forall p, c' p = gather p o (c p)) ->
    cstep (b, c) CCube CNone (b, c')
| s_zero (b : tuple -> option S) (c : pat -> option S) o z (c' : pat -> option S) : lists_zeros n b (empty_of z) o -> (forall p, c' p = gather p o (c p)) ->
    cstep (b, c) (CZeroCube z) CNone (b, c')
| s_get (b : tuple -> option S) (c : pat -> option S) p (c' : pat -> option S) : c' p = Some (val (c p)) -> (forall p', p' <> p -> c' p' = c p') ->
    cstep (b, c) (CGet p) (CStat (val (c p))) (b, c')
| s_walk (b : tuple -> option S) (c : pat -> option S) l : lists c l -> cstep (b, c) CWalk (CEntries l) (b, c)
| s_size (b : tuple -> option S) (c : pat -> option S) l : lists c l -> cstep (b, c) CSize (CNum (length l)) (b, c)
| s_prune (b : tuple -> option S) (c : pat -> option S) (q : pat -> bool) (c' : pat -> option S) : (forall p, c' p = if q p then None else c p) -> cstep (b, c) (CPrune q) CNone (b, c')
| s_clear (b : tuple -> option S) (c : pat -> option S) (t : bool) b' c' : (forall k, b' k = if t then None else b k) -> (forall p, c' p = None) ->
    cstep (b, c) (CClear t) CNone (b', c')
| s_bget (b : tuple -> option S) (c : pat -> option S) k (b' : tuple -> option S) : b' k = Some (val (b k)) -> (forall k', k' <> k -> b' k' = b k') ->
    cstep (b, c) (CBaseGet k) (CStat (val (b k))) (b', c)
| s_bwalk (b : tuple -> option S) (c : pat -> option S) l : lists b l -> cstep (b, c) CBaseWalk (CRows l) (b, c)
| s_zeros (b : tuple -> option S) (c : pat -> option S) z l : lists_zeros n b (empty_of z) l -> cstep (b, c) (CWalkZeros z) (CRows l) (b, c)
| s_bsize (b : tuple -> option S) (c : pat -> option S) l : lists b l -> cstep (b, c) CBaseSize (CNum (length l)) (b, c)
| s_bprune (b : tuple -> option S) (c : pat -> option S) (q : tuple -> bool) (b' : tuple -> option S) : (forall k, b' k = if q k then None else b k) -> cstep (b, c) (CBasePrune q) CNone (b', c).

Inductive chist : cstate -> list cop -> list cout -> cstate -> Prop :=
| h_nil s : chist s [] [] s
| h_cons s o out s' r outs s'' : cstep s o out s' -> chist s' r outs s'' -> chist s (o :: r) (out :: outs) s''.

(** Tuples and patterns in the program have the arity. *)
Definition typed (o : cop) : Prop :=
  match o with
  | CAdd k _ | CAddToCube k _ | CBaseGet k => length k = n
  | CGet p => length p = n
  | _ => True
  end.
(** A bound on the number of entries ever created; [m] bounds the base data. *)
Fixpoint cost (m : N) (l : list cop) : N :=
  match l with
  | [] => 0
  | CAdd _ _ :: r | CBaseGet _ :: r => 1 + cost (m + 1) r
  | CAddToCube _ _ :: r => 2 ^ N.of_nat n + cost m r
  | CCube :: r => m * 2 ^ N.of_nat n + cost m r
  | CZeroCube _ :: r => m ^ N.of_nat n * 2 ^ N.of_nat n + cost m r
  | CGet _ :: r => 1 + cost m r
  | _ :: r => cost m r
  end%N.
End Spec.
Arguments cop : clear implicits.
Arguments cout : clear implicits.
Arguments CNone {A S}.
Arguments CCube {A S X}. Arguments CWalk {A S X}. Arguments CSize {A S X}. Arguments CBaseWalk {A S X}. Arguments CBaseSize {A S X}.
