(** Specification of HashTable: a multiset with lookup up to [equal].
    Independent of the implementation model. *)
From Coq Require Import List Arith NArith Permutation.
From Verif Require Import Common.
Import ListNotations.

Section Spec.
Context {D : Type}.
Variable equal : D -> D -> bool.
(** Table capacity parameters: [num/den] is the target chain length. *)
Variables num den : nat.

(** Operations a client can issue. *)
Inductive top :=
| TAdd (d : D)                      (* add(d) *)
| TAddOrReplace (d : D)             (* addOrReplace(d, replaced) *)
| TLookup (k : D)                   (* lookup(k) *)
| TRemove (k : D) (must : bool)     (* remove(k, must_exist) *)
| TFindErase (k : D)                (* it = find(k); if (it != end()) erase(it) *)
| TEraseIf (p : D -> bool)          (* the erase-while-iterating loop *)
| TClear                            (* clear() *)
| TReserve (n : N)                  (* reserve(n) *)
| TSize                             (* size() *)
| TVerify                           (* verifyFreeListSize() *)
| TIterate                          (* for(i = begin(); i != end(); ++i) *)
| TRandom (a b : N).                (* randomlookup(a, b) *)

(** What the client sees. *)
Inductive tout :=
| TUnit
| TElem (o : option D)              (* the element pointed to, or NULL *)
| TElemB (o : option D) (b : bool)
| TBool (b : bool)
| TNum (n : nat)
| TElems (l : list D).

(** Abstract state: the stored elements (order irrelevant) and the number of
    insertions since construction or the last clear. *)
Record tstate := mk_ts { ts_elems : list D; ts_adds : nat }.

Definition absent (k : D) (c : list D) : Prop := forall d, In d c -> equal k d = false.

(** The largest supported hash-table size (src/HashTable.cpp:15-19). *)
Definition largest_table : N := 141650939.

(** The table is at its documented limit: target chain length times the
    largest table size has been reached. *)
Definition at_limit (s : tstate) : Prop :=
  (N.of_nat num * largest_table <= N.of_nat (ts_adds s) * N.of_nat den)%N.

Definition reserve_fits (n : N) : Prop :=
  (n * N.of_nat den / N.of_nat num <= largest_table)%N.

(** Normal steps. *)
Inductive tstep (s : tstate) : top -> tout -> tstate -> Prop :=
| S_add d c' : Permutation c' (d :: ts_elems s) ->
    tstep s (TAdd d) (TElem (Some d)) (mk_ts c' (S (ts_adds s)))
(* What the code does on an existing equal element: leave it (see C05). *)
| S_aor_old d d' : In d' (ts_elems s) -> equal d d' = true ->
    tstep s (TAddOrReplace d) (TElemB (Some d') true) s
| S_aor_new d c' : absent d (ts_elems s) -> Permutation c' (d :: ts_elems s) ->
    tstep s (TAddOrReplace d) (TElemB (Some d) false) (mk_ts c' (S (ts_adds s)))
| S_lookup_some k d : In d (ts_elems s) -> equal k d = true -> tstep s (TLookup k) (TElem (Some d)) s
| S_lookup_none k : absent k (ts_elems s) -> tstep s (TLookup k) (TElem None) s
| S_remove k must d c' : Permutation (ts_elems s) (d :: c') -> equal k d = true ->
    tstep s (TRemove k must) (TBool true) (mk_ts c' (ts_adds s))
| S_remove_none k : absent k (ts_elems s) -> tstep s (TRemove k false) (TBool false) s
| S_ferase k d c' : Permutation (ts_elems s) (d :: c') -> equal k d = true ->
    tstep s (TFindErase k) (TElem (Some d)) (mk_ts c' (ts_adds s))
| S_ferase_none k : absent k (ts_elems s) -> tstep s (TFindErase k) (TElem None) s
| S_eraseif p visited c' : Permutation visited (ts_elems s) ->
    Permutation c' (filter (fun d => negb (p d)) (ts_elems s)) ->
    tstep s (TEraseIf p) (TElems visited) (mk_ts c' (ts_adds s))
| S_clear : tstep s TClear TUnit (mk_ts [] 0)
| S_reserve n : ts_adds s = 0 -> reserve_fits n -> tstep s (TReserve n) TUnit s
| S_size : tstep s TSize (TNum (length (ts_elems s))) s
| S_verify : tstep s TVerify (TBool true) s
| S_iterate l : Permutation l (ts_elems s) -> tstep s TIterate (TElems l) s
| S_random_none a b : ts_elems s = [] -> tstep s (TRandom a b) (TElem None) s
| S_random_some a b d : In d (ts_elems s) -> tstep s (TRandom a b) (TElem (Some d)) s.

(** The only situations in which the program may abort. *)
Inductive taborts (s : tstate) : top -> Prop :=
| A_remove k : absent k (ts_elems s) -> taborts s (TRemove k true)
| A_reserve n : ts_adds s <> 0 \/ ~ reserve_fits n -> taborts s (TReserve n)
| A_add d : at_limit s -> taborts s (TAdd d)
| A_aor d : absent d (ts_elems s) -> at_limit s -> taborts s (TAddOrReplace d).

(** Acceptable observable histories: a list of outcomes, cut at an abort. *)
Inductive thist : tstate -> list top -> list (res tout) -> Prop :=
| H_nil s : thist s [] []
| H_step s o ops r s' rs : tstep s o r s' -> thist s' ops rs -> thist s (o :: ops) (Ok r :: rs)
| H_abort s o ops : taborts s o -> thist s (o :: ops) [Abort].

End Spec.
Arguments top : clear implicits.
Arguments tout : clear implicits.
Arguments tstate : clear implicits.
