(** Specification vocabulary for StatsQuantile: what the statements of C35-C37
    and C64 mean. *)
From Coq Require Import List Arith ZArith QArith Permutation Sorted.
From Verif Require Import Common Arith Quantile_Model.
Import ListNotations.
Local Open Scope Z_scope.

(** [v] is at position [r] (from 0) of the sorted list of the given samples. *)
Definition element_at (l : list Z) (r : Z) (v : Z) : Prop :=
  exists s, Permutation l s /\ StronglySorted Z.le s /\ 0 <= r /\ nth_error s (Z.to_nat r) = Some v.

(** What an object retains, read off its arrays: for every buffer in use its
    values (the whole buffer, or the filled part of the one being filled), each
    with the weight of the buffer. *)
Definition cell_values (c : list (option Z)) : list Z :=
  flat_map (fun x => match x with Some v => [v] | None => [] end) c.
Definition used (s : quantile) (i : nat) : nat :=
  if Z.of_nat i <? cur_buffer s then buffer_size s else cur_buffer_pos s.
Definition contents (s : quantile) (i : nat) : list Z :=
  match nth_error (all_buffers s) i with
  | Some (Some c) => cell_values (firstn (used s i) c)
  | _ => []
  end.
Definition buffers_in_use (s : quantile) : list nat := seq 0 (Z.to_nat (cur_buffer s + 1)).
Definition retained (s : quantile) : list (Z * Z) :=
  flat_map (fun i => map (fun v => (v, nth i (buffer_weight s) 0)) (contents s i)) (buffers_in_use s).
Definition total_weight (r : list (Z * Z)) : Z := fold_right Z.add 0 (map snd r).
(** the multiset in which every retained value is repeated by its weight *)
Definition weighted (r : list (Z * Z)) : list Z := flat_map (fun p => repeat (fst p) (Z.to_nat (snd p))) r.

(** ** Histories of one object, built from other objects by add(Stats). *)
Inductive hist : Type :=
| HNew (nbound : Z) (lazy : bool) (nb bs : nat)
| HAdd (h : hist) (v : Z)
| HMerge (h other : hist)
| HReset (h : hist)
| HQuery (h : hist) (q : Q) (allow : bool).

Fixpoint samples (h : hist) : list Z :=
  match h with
  | HNew _ _ _ _ => []
  | HAdd h v => samples h ++ [v]
  | HMerge h o => samples h ++ samples o
  | HReset _ => []
  | HQuery h _ _ => samples h
  end.

Fixpoint eval (h : hist) : res quantile :=
  match h with
  | HNew nbound lazy nb bs => q_init nbound lazy nb bs
  | HAdd h v => let! s := eval h in q_add s v
  | HMerge h o => let! s := eval h in let! t := eval o in q_merge s t
  | HReset h => let! s := eval h in Ok (q_reset s)
  | HQuery h q allow => let! s := eval h in let! (_, s') := getQuantile (A := exact) s (Fin q) allow in Ok s'
  end.

Fixpoint shape (h : hist) : nat * nat * Z :=
  match h with
  | HNew nbound _ nb bs => (nb, bs, nbound)
  | HAdd h _ | HMerge h _ | HReset h | HQuery h _ _ => shape h
  end.
Definition hnb (h : hist) : nat := fst (fst (shape h)).
Definition hbs (h : hist) : nat := snd (fst (shape h)).
Definition hbound (h : hist) : Z := snd (shape h).

(** The histories the theorems speak about: sizes accepted by the constructor, at
    most as many buffers as a buffer has cells (see C35_too_many_buffers_refuted),
    no merge from an empty object except into an empty object of the same shape
    (see C35_merge_empty_refuted), queries with a legal quantile, and fewer than
    1e14 samples. *)
Fixpoint legal (h : hist) : Prop :=
  match h with
  | HNew _ _ nb bs => (2 <= nb /\ 10 <= bs /\ nb <= bs)%nat /\ Z.of_nat bs < 2 ^ 31
  | HAdd h v => legal h
  | HMerge h o => legal h /\ legal o /\
      (samples o <> [] \/ (samples h = [] /\ hnb h = hnb o /\ hbs h = hbs o))
  | HReset h => legal h
  | HQuery h q allow => legal h /\ (0 <= q <= 1)%Q /\ (allow = true \/ Z.of_nat (length (samples h)) <= hbound h)
  end.
Fixpoint small (h : hist) : Prop :=
  Z.of_nat (length (samples h)) < 10 ^ 14 /\
  match h with
  | HNew _ _ _ _ => True
  | HAdd h _ | HReset h | HQuery h _ _ => small h
  | HMerge h o => small h /\ small o
  end.

(** Adding a list of samples one after the other. *)
Fixpoint add_all (s : quantile) (l : list Z) : res quantile :=
  match l with
  | [] => Ok s
  | v :: r => let! s' := q_add s v in add_all s' r
  end.

(** The weights of the buffers made by the collapses that happen while a list of
    samples is added: an addition collapses exactly when all buffers are full,
    and the new buffer is the one before the buffer then being filled. *)
Fixpoint collapse_weights (s : quantile) (l : list Z) : list Z :=
  match l with
  | [] => []
  | v :: r =>
    match q_add s v with
    | Ok s' =>
      (if (cur_buffer s =? Z.of_nat (nbuffers s) - 1) && (cur_buffer_pos s =? buffer_size s)%nat
       then [nth (Z.to_nat (cur_buffer s' - 1)) (buffer_weight s') 0] else [])
      ++ collapse_weights s' r
    | _ => []
    end
  end.
(** W - C of Manku, Rajagopalan and Lindsay: what the collapses can hide. *)
Definition hidden (ws : list Z) : Z := fold_right Z.add 0 (map (fun w => w - 1) ws).

(** The rank (from 1) that getQuantile(q) asks for among n samples. *)
Definition query_rank (n : Z) (q : Q) : Z := Z.max 1 (Qround.Qceiling (inject_Z n * (q - (1 # 1000000000000000)))).

(** ** Error carried over by merges. The samples behind errors that were made in
    other objects: merging into a non-empty object re-adds what the other object
    retained, so the error of the other object stays. *)
Fixpoint carried (h : hist) : nat :=
  match h with
  | HNew _ _ _ _ => 0
  | HAdd h _ | HQuery h _ _ => carried h
  | HReset _ => 0
  | HMerge h o => match samples h with [] => carried o | _ :: _ => carried h + carried o + length (samples o) end
  end.
(** Every object in the history was made with the same sizes. *)
Fixpoint uniform (nbound : Z) (nb bs : nat) (h : hist) : Prop :=
  match h with
  | HNew n _ b k => n = nbound /\ b = nb /\ k = bs
  | HAdd h _ | HQuery h _ _ | HReset h => uniform nbound nb bs h
  | HMerge h o => uniform nbound nb bs h /\ uniform nbound nb bs o
  end.
(** No object in the history ever held more than [nbound] samples. *)
Fixpoint within (nbound : Z) (h : hist) : Prop :=
  Z.of_nat (length (samples h)) <= nbound /\
  match h with
  | HNew _ _ _ _ => True
  | HAdd h _ | HQuery h _ _ | HReset h => within nbound h
  | HMerge h o => within nbound h /\ within nbound o
  end.
