(** Model of StatsSequence (include/Lintel/StatsSequence.hpp, src/StatsSequence.cpp)
    over an abstract arithmetic. printRome is not modelled. *)
From Coq Require Import List Arith ZArith QArith.
From Verif Require Import Common Arith Stats_Model.
Import ListNotations.
Local Open Scope Z_scope.

(** StatsSequence.hpp:22 *)
Inductive mode : Type := MergeSum | MergeMean | MergeMax.

(** StatsSequence.hpp:36-42. [max_retain] is an unsigned long, here a nat; the two
    ints are Z with overflow checked. *)
Record seqstat (A : arith) : Type := mkSeq {
  sq_stats : stats A;
  max_retain : nat;
  merge_mode : mode;
  values : list A;
  interval_width : A;
  new_value : A;
  points_per_bucket : Z;
  points_remain : Z }.
Arguments mkSeq {A}.
Arguments sq_stats {A}.
Arguments max_retain {A}.
Arguments merge_mode {A}.
Arguments values {A}.
Arguments interval_width {A}.
Arguments new_value {A}.
Arguments points_per_bucket {A}.
Arguments points_remain {A}.

Section M.
Variable A : arith.

(** StatsSequence.cpp:31-39 *)
Definition sq_reset (s : seqstat A) : seqstat A :=
  mkSeq (st_reset A (sq_stats s)) (max_retain s) (merge_mode s) [] (interval_width s) (of_int 0) 1 1.

(** StatsSequence.cpp:16-25 *)
Definition sq_new (mr : nat) (m : mode) : res (seqstat A) :=
  let! _ := invariant (0 <? mr)%nat in
  let! _ := invariant (mr mod 2 =? 0)%nat in
  Ok (sq_reset (mkSeq (st_new A) mr m [] (of_int 1) (of_int 0) 1 1)).

(** The switch in the loop, StatsSequence.cpp:50-60 *)
Definition merge_two (m : mode) (x y : A) : A :=
  match m with
  | MergeSum => nadd x y
  | MergeMean => ndiv (nadd x y) (of_int 2)
  | MergeMax => if nlt y x then x else y
  end.

(** The loop over i, in place, StatsSequence.cpp:48-61 *)
Fixpoint halve (m : mode) (is_ : list nat) (v : list A) : res (list A) :=
  match is_ with
  | [] => Ok v
  | i :: r =>
    let! x := get v (2 * i) in
    let! y := get v (2 * i + 1) in
    let! v := put v i (merge_two m x y) in
    halve m r v
  end.

(** int multiplication and subtraction *)
Definition int_ok (z : Z) : res Z := if (- 2 ^ 31 <=? z) && (z <? 2 ^ 31) then Ok z else UB.

(** StatsSequence.cpp:41-89 *)
Definition sq_add (s : seqstat A) (value : A) : res (seqstat A) :=
  let st := st_add A (sq_stats s) value in
  let! (vals, ppb, rem) :=
    (if (length (values s) =? max_retain s)%nat then
       let! _ := invariant ((points_remain s =? points_per_bucket s) && neq (new_value s) (of_int 0)) in
       let! v := halve (merge_mode s) (seq 0 (max_retain s / 2)) (values s) in
       let! ppb := int_ok (points_per_bucket s * 2) in
       Ok (firstn (max_retain s / 2) v, ppb, ppb)
     else Ok (values s, points_per_bucket s, points_remain s)) in
  let nv := match merge_mode s with
            | MergeMax => if nlt value (new_value s) then new_value s else value
            | _ => nadd (new_value s) value
            end in
  let rem := rem - 1 in
  if rem =? 0 then
    let nv := match merge_mode s with MergeMean => ndiv nv (of_int ppb) | _ => nv end in
    let vals := vals ++ [nv] in
    let! _ := invariant (length vals <=? max_retain s)%nat in
    Ok (mkSeq st (max_retain s) (merge_mode s) vals (interval_width s) (of_int 0) ppb ppb)
  else Ok (mkSeq st (max_retain s) (merge_mode s) vals (interval_width s) nv ppb rem).

(** StatsSequence.cpp:136-150; both check that no bucket is complete yet *)
Definition setIntervalWidth (s : seqstat A) (w : A) : res (seqstat A) :=
  let! _ := invariant (length (values s) =? 0)%nat in
  Ok (mkSeq (sq_stats s) (max_retain s) (merge_mode s) (values s) w (new_value s) (points_per_bucket s) (points_remain s)).
Definition setMergeMode (s : seqstat A) (m : mode) : res (seqstat A) :=
  let! _ := invariant (length (values s) =? 0)%nat in
  Ok (mkSeq (sq_stats s) (max_retain s) m (values s) (interval_width s) (new_value s) (points_per_bucket s) (points_remain s)).

(** StatsSequence.cpp:152-172 *)
Definition sq_get (s : seqstat A) (i : nat) : res A :=
  let! _ := invariant (i <? length (values s))%nat in get (values s) i.
Definition maxSeqNum (s : seqstat A) : nat := length (values s).
Definition getPointsPerBucket (s : seqstat A) : Z := points_per_bucket s.
End M.

(** A history of one object: samples, resets and changes of the merge mode. *)
Inductive sop : Type := SAdd (v : Q) | SReset | SMode (m : mode).
Definition sq_step (s : seqstat exact) (o : sop) : res (seqstat exact) :=
  match o with
  | SAdd v => sq_add exact s (Fin v)
  | SReset => Ok (sq_reset exact s)
  | SMode m => setMergeMode exact s m
  end.
Fixpoint sq_run (s : seqstat exact) (l : list sop) : res (seqstat exact) :=
  match l with
  | [] => Ok s
  | o :: r => let! s := sq_step s o in sq_run s r
  end.
