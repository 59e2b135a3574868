(** Model of src/StatsQuantile.cpp and include/Lintel/StatsQuantile.hpp.

    Sample values. StatsQuantile only copies and compares samples, so a double
    that is not NaN is represented by an integer giving its place in the order of
    doubles (0.0 and -0.0 are one value); Double::Inf is [key_inf]. NaN samples
    are not modelled (std::sort is undefined on them).
    Array cells are [option Z]: None is a cell that was never written, reading it
    is UB; an unallocated buffer (NULL) is None. Sizes, positions and buffer
    numbers are natural numbers (int in the code; cur_buffer, which may be -1, is
    in Z). Weights are unbounded integers: they never exceed the number of
    samples, and collapse() refuses to run at 1e14 samples.
    Of the base class only the sample count is kept (Stats.cpp is modelled in
    Stats_Model.v). Allocation succeeds. Debug-only checks and logging are not
    executed. The sorted range after std::sort is the sorted list ([isort]). *)
From Coq Require Import List Arith ZArith QArith Qround NArith Bool.
From Verif Require Import Common Arith PriorityQueue_Model.
Import ListNotations.
Local Open Scope Z_scope.

Definition key_inf : Z := 2047 * 2 ^ 52.   (* bit pattern of +infinity *)

Notation cells := (list (option Z)).

(** Members, StatsQuantile.hpp:151-182. tmp_buffer is written before it is read
    in collapse() and is not kept; quantile_error and print_nrange are only printed. *)
Record quantile := mk_q {
  q_nbound : Z;
  buffer_size : nat;
  nbuffers : nat;
  all_buffers : list (option cells);
  buffer_weight : list Z;
  buffer_level : list Z;
  cur_buffer : Z;
  cur_buffer_pos : nat;
  buffer_sorted : list bool;
  collapse_pos : list nat;          (* new int[buffer_size]; always written before it is read *)
  collapse_even_low : bool;
  q_lazy : bool;
  q_count : Z                       (* countll() *)
}.

Definition set_bufs (s : quantile) a := mk_q (q_nbound s) (buffer_size s) (nbuffers s) a (buffer_weight s) (buffer_level s)
  (cur_buffer s) (cur_buffer_pos s) (buffer_sorted s) (collapse_pos s) (collapse_even_low s) (q_lazy s) (q_count s).
Definition set_meta (s : quantile) w l so := mk_q (q_nbound s) (buffer_size s) (nbuffers s) (all_buffers s) w l
  (cur_buffer s) (cur_buffer_pos s) so (collapse_pos s) (collapse_even_low s) (q_lazy s) (q_count s).
Definition set_cur (s : quantile) c p := mk_q (q_nbound s) (buffer_size s) (nbuffers s) (all_buffers s) (buffer_weight s) (buffer_level s)
  c p (buffer_sorted s) (collapse_pos s) (collapse_even_low s) (q_lazy s) (q_count s).
Definition set_cpos (s : quantile) cp := mk_q (q_nbound s) (buffer_size s) (nbuffers s) (all_buffers s) (buffer_weight s) (buffer_level s)
  (cur_buffer s) (cur_buffer_pos s) (buffer_sorted s) cp (collapse_even_low s) (q_lazy s) (q_count s).
Definition set_even (s : quantile) e := mk_q (q_nbound s) (buffer_size s) (nbuffers s) (all_buffers s) (buffer_weight s) (buffer_level s)
  (cur_buffer s) (cur_buffer_pos s) (buffer_sorted s) (collapse_pos s) e (q_lazy s) (q_count s).
Definition set_count (s : quantile) n := mk_q (q_nbound s) (buffer_size s) (nbuffers s) (all_buffers s) (buffer_weight s) (buffer_level s)
  (cur_buffer s) (cur_buffer_pos s) (buffer_sorted s) (collapse_pos s) (collapse_even_low s) (q_lazy s) n.

(** a "for" loop over the given indices *)
Fixpoint for_each {S} (f : nat -> S -> res S) (l : list nat) (s : S) : res S :=
  match l with
  | [] => Ok s
  | i :: r => let! s' := f i s in for_each f r s'
  end.

(** Array subscripted by a possibly negative int. *)
Definition index (z : Z) : res nat := if z <? 0 then UB else Ok (Z.to_nat z).

(** std::sort with doubleOrder *)
Fixpoint insert (x : Z) (l : list Z) : list Z :=
  match l with
  | [] => [x]
  | y :: r => if x <=? y then x :: l else y :: insert x r
  end.
Fixpoint isort (l : list Z) : list Z :=
  match l with [] => [] | x :: r => insert x (isort r) end.

Fixpoint read_cells (c : cells) : res (list Z) :=
  match c with
  | [] => Ok []
  | Some v :: r => let! l := read_cells r in Ok (v :: l)
  | None :: _ => UB
  end.

(** sort(buffer, buffer + n) *)
Definition sort_prefix (n : nat) (c : cells) : res cells :=
  if (n <=? length c)%nat then
    let! l := read_cells (firstn n c) in Ok (map Some (isort l) ++ skipn n c)
  else UB.

Definition buffer_of (s : quantile) (i : nat) : res cells :=
  let! b := get (all_buffers s) i in
  match b with Some c => Ok c | None => UB end.

(** sort(all_buffers[i], all_buffers[i] + n) *)
Definition sort_buffer (s : quantile) (i n : nat) : res quantile :=
  let! c := buffer_of s i in
  let! c' := sort_prefix n c in
  let! a := put (all_buffers s) i (Some c') in
  Ok (set_bufs s a).

(** The stores all_buffers[i][j] = 0.0 for j = 0, 32, 64, ... StatsQuantile.cpp:171-173 *)
Fixpoint touch (j : nat) (c : cells) : cells :=
  match c with
  | [] => []
  | x :: r => (if (j mod 32 =? 0)%nat then Some 0 else x) :: touch (S j) r
  end.

(** StatsQuantile.cpp:162-189 *)
Definition init_buffers (s : quantile) : quantile :=
  let bufs := map (fun b => match b with
                            | Some c => Some (touch 0 c)
                            | None => if q_lazy s then None else Some (touch 0 (repeat None (buffer_size s)))
                            end) (all_buffers s) in
  mk_q (q_nbound s) (buffer_size s) (nbuffers s) bufs
    (upd (repeat (-1) (nbuffers s)) 0 1) (upd (repeat (-1) (nbuffers s)) 0 0)
    (if q_lazy s then -1 else 0) (if q_lazy s then S (buffer_size s) else O)
    (repeat false (nbuffers s)) (collapse_pos s) true (q_lazy s) (q_count s).

(** StatsQuantile.cpp:139-160 (and the test constructor, 132-137) *)
Definition q_init (nbound : Z) (lazy : bool) (nb bs : nat) : res quantile :=
  let! _ := invariant (1 <? nb)%nat in
  let! _ := invariant (10 <=? bs)%nat in
  Ok (init_buffers (mk_q nbound bs nb (repeat None nb) [] [] 0 0 [] (repeat O bs) true lazy 0)).

(** StatsQuantile.cpp:203-206 *)
Definition q_reset (s : quantile) : quantile := init_buffers (set_count s 0).

(** StatsQuantile.cpp:383-387: the loop, [i] = first_buffer *)
Fixpoint find_first (level : list Z) (i : nat) : res nat :=
  match i with
  | O => Ok O
  | S j =>
    let! a := get level j in
    let! b := get level i in
    if negb (a =? b) then Ok i else find_first level j
  end.

(** StatsQuantile.cpp:378-393 *)
Definition collapseFindFirstBuffer (s : quantile) : res nat :=
  let! _ := invariant (q_count s <? 10 ^ 14) in
  let! first := find_first (buffer_level s) (nbuffers s - 1) in
  let! _ := invariant (first <? nbuffers s - 1)%nat in
  let! l := get (buffer_level s) first in
  let! _ := invariant (0 <=? l) in
  Ok first.

(** StatsQuantile.cpp:546-563 *)
Definition collapseSortBuffers (s : quantile) (first : nat) : res (quantile * Z) :=
  for_each (fun i (p : quantile * Z) =>
    let (s, total) := p in
    let! w := get (buffer_weight s) i in
    let! _ := invariant (0 <? w) in
    let! cp := put (collapse_pos s) i O in
    let s := set_cpos s cp in
    let! so := get (buffer_sorted s) i in
    if so then Ok (s, total + w) else
    let! _ := invariant ((i =? nbuffers s - 1)%nat || (w =? 1)) in
    let! s := sort_buffer s i (buffer_size s) in
    let! so := put (buffer_sorted s) i true in
    Ok (set_meta s (buffer_weight s) (buffer_level s) so, total + w))
  (seq first (nbuffers s - first)) (s, 0).

(** StatsQuantile.cpp:565-581. The offset and the new collapse_even_low. *)
Definition collapseNextQuantileOffset (even_low : bool) (total_weight : Z) : Z * bool :=
  if total_weight mod 2 =? 0 then
    if even_low then (total_weight / 2, false) else ((total_weight + 2) / 2, true)
  else ((total_weight + 1) / 2, even_low).

(** StatsQuantile.hpp:184-186 *)
Definition collapseVal (s : quantile) (cp : list nat) (i : nat) : res Z :=
  let! c := buffer_of s i in
  let! p := get cp i in
  let! v := get c p in
  match v with Some x => Ok x | None => UB end.

(** pairCmp, StatsQuantile.hpp:187-192; pair<double,int>() is (0.0, 0) *)
Definition pairCmp (a b : Z * nat) : bool := fst b <=? fst a.
Definition pair0 : Z * nat := (0, O).

(** The while loop of collapse(), StatsQuantile.cpp:618-643. The part of tmp_buffer
    written so far is [out]; next_output_pos is its length. *)
Fixpoint collapse_loop (fuel : nat) (s : quantile) (total : Z) (pq : pqueue (Z * nat)) (cp : list nat)
                       (cqo nqo : Z) (out : list Z) : res (list nat * Z * list Z) :=
  if (length out <? buffer_size s)%nat then
    match fuel with
    | O => Fuel
    | S f =>
      let! top := pq_top pq in
      let (min_val, min_buffer) := top in
      let! p := get cp min_buffer in
      let! cp := put cp min_buffer (S p) in
      let! w := get (buffer_weight s) min_buffer in
      let cqo := cqo + w in
      let (out, nqo) := if nqo <? cqo then (out ++ [min_val], nqo + total) else (out, nqo) in
      let! pq :=
        (if (S p <? buffer_size s)%nat then
           let! v := collapseVal s cp min_buffer in pq_replaceTop pairCmp pq (v, min_buffer)
         else pq_pop pairCmp pq) in
      collapse_loop f s total pq cp cqo nqo out
    end
  else Ok (cp, nqo, out).

(** for(i = first; i < last; ++i) pq.push(make_pair(collapseVal(i), i)) *)
Definition push_all (s : quantile) (cp : list nat) (l : list nat) (q : pqueue (Z * nat)) : res (pqueue (Z * nat)) :=
  for_each (fun i q => let! v := collapseVal s cp i in pq_push pairCmp pair0 q (v, i)) l q.

(** StatsQuantile.cpp:583-661 *)
Definition collapse (s : quantile) : res quantile :=
  let! first := collapseFindFirstBuffer s in
  let! (s, total) := collapseSortBuffers s first in
  let (nqo, even) := collapseNextQuantileOffset (collapse_even_low s) total in
  let s := set_even s even in
  let rest := seq first (nbuffers s - first) in
  let! pq := push_all s (collapse_pos s) rest (pq_new pair0 (N.of_nat (nbuffers s))) in
  let! (cp, nqo, out) := collapse_loop (nbuffers s * buffer_size s) s total pq (collapse_pos s) 0 (nqo - 1) [] in
  let s := set_cpos s cp in
  let! _ := invariant (nqo / total =? Z.of_nat (buffer_size s)) in
  let! _ := buffer_of s first in
  let! a := put (all_buffers s) first (Some (map Some out)) in
  let s := set_bufs s a in
  let! l := get (buffer_level s) first in
  let! lev := put (buffer_level s) first (l + 1) in
  let! wei := put (buffer_weight s) first total in
  let! sor := put (buffer_sorted s) first true in
  let! s := for_each (fun i s =>
      let! w := put (buffer_weight s) i (-1) in
      let! l := put (buffer_level s) i (-1) in
      let! so := put (buffer_sorted s) i false in
      Ok (set_meta s w l so))
    (seq (first + 1) (nbuffers s - (first + 1))) (set_meta s wei lev sor) in
  Ok (set_cur s (Z.of_nat first + 1) (cur_buffer_pos s)).

(** StatsQuantile.cpp:208-236 *)
Definition addQuantile (s : quantile) (value : Z) : res quantile :=
  let! s :=
    (if (buffer_size s <=? cur_buffer_pos s)%nat then
      let s := set_cur s (cur_buffer s + 1) 0 in
      let! s :=
        (if cur_buffer s =? Z.of_nat (nbuffers s) then collapse s
         else if 0 <? cur_buffer s then
           let! i := index (cur_buffer s - 1) in
           let! s := sort_buffer s i (buffer_size s) in
           let! so := put (buffer_sorted s) i true in
           Ok (set_meta s (buffer_weight s) (buffer_level s) so)
         else Ok s) in
      let! _ := invariant (cur_buffer s <? Z.of_nat (nbuffers s)) in
      let! c := index (cur_buffer s) in
      let! b := get (all_buffers s) c in
      let! s :=
        match b with
        | None => if q_lazy s then
                    let! a := put (all_buffers s) c (Some (repeat None (buffer_size s))) in Ok (set_bufs s a)
                  else Ok s
        | Some _ => Ok s
        end in
      let! w := put (buffer_weight s) c 1 in
      let! l := put (buffer_level s) c 0 in
      let! l :=
        (if cur_buffer s =? Z.of_nat (nbuffers s) - 1 then
           let! j := index (cur_buffer s - 1) in
           let! x := get l j in put l c x
         else Ok l) in
      Ok (set_meta s w l (buffer_sorted s))
    else Ok s) in
  let! c := index (cur_buffer s) in
  let! so := put (buffer_sorted s) c false in
  let! b := buffer_of s c in
  let! b := put b (cur_buffer_pos s) (Some value) in
  let! a := put (all_buffers s) c (Some b) in
  let s := set_bufs (set_meta s (buffer_weight s) (buffer_level s) so) a in
  Ok (set_cur s (cur_buffer s) (S (cur_buffer_pos s))).

(** StatsQuantile.cpp:238-241 *)
Definition q_add (s : quantile) (value : Z) : res quantile :=
  addQuantile (set_count s (q_count s + 1)) value.

(** addQuantile(v), n times *)
Fixpoint add_times (n : nat) (v : Z) (s : quantile) : res quantile :=
  match n with
  | O => Ok s
  | S n => let! s := addQuantile s v in add_times n v s
  end.

(** The body of the loops 291-297 and 299-305: the first [n] values of buffer [i]. *)
Definition add_buffer (t : quantile) (i n : nat) (s : quantile) : res quantile :=
  let! c := buffer_of t i in
  let! w := get (buffer_weight t) i in
  for_each (fun j s =>
    let! v := get c j in
    match v with
    | Some v => add_times (Z.to_nat w) v s
    | None => UB
    end) (seq 0 n) s.

(** StatsQuantile.cpp:243-306 for another object [t] that is a StatsQuantile.
    When stat->cur_buffer is -1 line 299 reads all_buffers[-1]. *)
Definition q_merge (s t : quantile) : res quantile :=
  let s := set_count s (q_count s + q_count t) in
  if ((cur_buffer s =? -1) || ((cur_buffer s =? 0) && (cur_buffer_pos s =? 0)%nat))
     && (buffer_size s =? buffer_size t)%nat && (nbuffers s =? nbuffers t)%nat
  then
    let! _ := invariant (q_count s =? q_count t) in
    let! _ := invariant (cur_buffer t <? Z.of_nat (nbuffers s)) in
    let! s := for_each (fun i s =>
        let! c := buffer_of t i in
        let! a := put (all_buffers s) i (Some c) in
        let! w := get (buffer_weight t) i in
        let! l := get (buffer_level t) i in
        let! so := get (buffer_sorted t) i in
        let! ws := put (buffer_weight s) i w in
        let! ls := put (buffer_level s) i l in
        let! ss := put (buffer_sorted s) i so in
        Ok (set_meta (set_bufs s a) ws ls ss))
      (seq 0 (Z.to_nat (cur_buffer t + 1))) s in
    Ok (set_even (set_cpos (set_cur s (cur_buffer t) (cur_buffer_pos t)) (collapse_pos t)) (collapse_even_low t))
  else
    let! s := for_each (fun i s => add_buffer t i (buffer_size t) s) (seq 0 (Z.to_nat (cur_buffer t))) s in
    let! c := index (cur_buffer t) in
    add_buffer t c (cur_buffer_pos t) s.

(** getQuantileByIndex, StatsQuantile.cpp:414-442; None is the NaN of line 442. *)
Fixpoint by_index_loop (fuel : nat) (s : quantile) (target cur_index : Z) (pq : pqueue (Z * nat)) (cp : list nat)
  : res (option Z) :=
  if pq_empty pq then Ok None else
  match fuel with
  | O => Fuel
  | S f =>
    let! top := pq_top pq in
    let (min_val, min_buffer) := top in
    let! p := get cp min_buffer in
    let! cp := put cp min_buffer (S p) in
    let! w := get (buffer_weight s) min_buffer in
    let cur_index := cur_index + w in
    if target <? cur_index then Ok (Some min_val) else
    let max_pos := if Z.of_nat min_buffer <? cur_buffer s then buffer_size s else cur_buffer_pos s in
    let! pq :=
      (if (S p <? max_pos)%nat then
         let! v := collapseVal s cp min_buffer in pq_replaceTop pairCmp pq (v, min_buffer)
       else pq_pop pairCmp pq) in
    by_index_loop f s target cur_index pq cp
  end.

(** StatsQuantile.cpp:398-443 *)
Definition getQuantileByIndex (s : quantile) (target : Z) : res (option Z) :=
  let! cp := for_each (fun i cp => put cp i O) (seq 0 (Z.to_nat (cur_buffer s))) (collapse_pos s) in
  let! pq := push_all s cp (seq 0 (Z.to_nat (cur_buffer s))) (pq_new pair0 (N.of_nat (nbuffers s))) in
  let! (cp, pq) :=
    (if (0 <? cur_buffer_pos s)%nat then
       let! c := index (cur_buffer s) in
       let! cp := put cp c O in
       let! v := collapseVal s cp c in
       let! pq := pq_push pairCmp pair0 pq (v, c) in
       Ok (cp, pq)
     else Ok (cp, pq)) in
  by_index_loop (nbuffers s * buffer_size s) s target 0 pq cp.

(** BinSearchState, StatsQuantile.cpp:446-460. The split positions of an iteration
    are returned by [calculateBounds]. *)
Record bsstate := mk_bs { bmin : nat; bmax : nat; orig_max : nat }.
Definition bmid (b : bsstate) : nat := ((bmax b + bmin b) / 2)%nat.
Definition remain (b : bsstate) : nat := (bmax b - bmin b)%nat.

(** std::lower_bound / upper_bound on a sorted range: the number of leading
    elements below / not above the target. *)
Fixpoint lower_bound (t : Z) (l : list Z) : nat :=
  match l with [] => O | x :: r => if x <? t then S (lower_bound t r) else O end.
Fixpoint upper_bound (t : Z) (l : list Z) : nat :=
  match l with [] => O | x :: r => if x <=? t then S (upper_bound t r) else O end.

(** StatsQuantile.cpp:454-459: (split_lower, split_upper) *)
Definition calculateBounds (b : bsstate) (t : Z) (c : cells) : res (nat * nat) :=
  if (bmin b <=? bmax b)%nat && (bmax b <=? length c)%nat then
    let! l := read_cells (firstn (bmax b - bmin b) (skipn (bmin b) c)) in
    Ok ((bmin b + lower_bound t l)%nat, (bmin b + upper_bound t l)%nat)
  else UB.

(** StatsQuantile.cpp:462-472 *)
Fixpoint biggest_from (l : list bsstate) (i biggest rem : nat) : nat :=
  match l with
  | [] => biggest
  | b :: r => if (rem <? remain b)%nat then biggest_from r (S i) i (remain b) else biggest_from r (S i) biggest rem
  end.
Definition biggestRemaining (l : list bsstate) : res nat :=
  match l with
  | [] => UB
  | b :: r => Ok (biggest_from r 1 0 (remain b))
  end.

(** The first for loop of an iteration, StatsQuantile.cpp:503-514. [i] is the
    buffer number of the head of the list. *)
Fixpoint split_all (s : quantile) (t : Z) (l : list bsstate) (i : nat) : res (list (nat * nat) * (Z * Z * Z)) :=
  match l with
  | [] => Ok ([], (0, 0, 0))
  | b :: r =>
    let! c := buffer_of s i in
    let! (lo, up) := calculateBounds b t c in
    let! w := get (buffer_weight s) i in
    let! (sp, (cl, cm, cu)) := split_all s t r (S i) in
    Ok ((lo, up) :: sp, (w * Z.of_nat lo + cl, w * Z.of_nat (up - lo) + cm, w * Z.of_nat (orig_max b - up) + cu))
  end.

(** Lines 522-526 / 534-538: the new states and any_changed. *)
Fixpoint narrow_upper (l : list bsstate) (sp : list (nat * nat)) : res (list bsstate * bool) :=
  match l, sp with
  | b :: r, (lo, _) :: sp =>
    let! _ := invariant (bmin b <=? lo)%nat in
    let! (r', ch) := narrow_upper r sp in
    Ok (mk_bs (bmin b) lo (orig_max b) :: r', negb (bmax b =? lo)%nat || ch)
  | _, _ => Ok ([], false)
  end.
Fixpoint narrow_lower (l : list bsstate) (sp : list (nat * nat)) : res (list bsstate * bool) :=
  match l, sp with
  | b :: r, (_, up) :: sp =>
    let! _ := invariant (up <=? bmax b)%nat in
    let! (r', ch) := narrow_lower r sp in
    Ok (mk_bs up (bmax b) (orig_max b) :: r', negb (bmin b =? up)%nat || ch)
  | _, _ => Ok ([], false)
  end.

(** The while loop, StatsQuantile.cpp:494-541. *)
Fixpoint bin_loop (fuel : nat) (s : quantile) (target entry_count : Z) (l : list bsstate) : res Z :=
  match fuel with
  | O => Fuel
  | S f =>
    let! biggest := biggestRemaining l in
    let! b := get l biggest in
    let! c := buffer_of s biggest in
    let! v := get c (bmid b) in
    let! split_val := match v with Some x => Ok x | None => UB end in
    let! (sp, (cl, cm, cu)) := split_all s split_val l 0 in
    let! _ := invariant (cl + cm + cu =? entry_count) in
    if target <? cl then
      let! (l', ch) := narrow_upper l sp in
      let! _ := invariant ch in
      bin_loop f s target entry_count l'
    else if target <? cl + cm then Ok split_val
    else if target <? cl + cm + cu then
      let! (l', ch) := narrow_lower l sp in
      let! _ := invariant ch in
      bin_loop f s target entry_count l'
    else bin_loop f s target entry_count l
  end.

(** StatsQuantile.cpp:477-491 *)
Definition getQuantileByBinSearchIndex (s : quantile) (target : Z) : res Z :=
  let! cur := index (cur_buffer s) in
  let l0 := repeat (mk_bs 0 (buffer_size s) (buffer_size s)) (cur + (if (0 <? cur_buffer_pos s)%nat then 1 else 0)) in
  let! l := (if (0 <? cur_buffer_pos s)%nat then put l0 cur (mk_bs 0 (cur_buffer_pos s) (cur_buffer_pos s)) else Ok l0) in
  let! full := for_each (fun i n => let! w := get (buffer_weight s) i in Ok (n + w * Z.of_nat (buffer_size s)))
                        (seq 0 cur) 0 in
  let entry_count := full + Z.of_nat (cur_buffer_pos s) in
  let! _ := invariant (entry_count =? q_count s) in
  bin_loop (S (nbuffers s * buffer_size s)) s target entry_count l.

(** The loop of getQuantile that sorts the buffers, StatsQuantile.cpp:330-355. *)
Definition sort_for_query (s : quantile) : res quantile :=
  for_each (fun i s =>
    let! cp := put (collapse_pos s) i O in
    let s := set_cpos s cp in
    let! so := get (buffer_sorted s) i in
    if so then Ok s else
    let! s :=
      (if Z.of_nat i <? cur_buffer s then sort_buffer s i (buffer_size s)
       else
         let! s := sort_buffer s i (cur_buffer_pos s) in
         let! c := buffer_of s i in
         let! a := put (all_buffers s) i
                     (Some (firstn (cur_buffer_pos s) c ++ repeat (Some key_inf) (buffer_size s - cur_buffer_pos s))) in
         Ok (set_bufs s a)) in
    let! so := put (buffer_sorted s) i true in
    Ok (set_meta s (buffer_weight s) (buffer_level s) so))
  (seq 0 (Z.to_nat (cur_buffer s + 1))) s.

Section Query.
Context {A : arith}.

(** StatsQuantile.cpp:360-373. The literal 1e-15 is the correctly rounded
    quotient of 1 and 1e15; ceil(x) = -floor(-x). *)
Definition target_index (count : Z) (quantile : A) : res Z :=
  let nentries := of_int count in
  let x := nmul nentries (nsub quantile (ndiv (of_int 1) (of_int (10 ^ 15)))) in
  match nfloor (nopp x) with
  | Some f =>
    if (- 2 ^ 63 <=? - f) && (- f <? 2 ^ 63) then
      let t := - f - 1 in
      let t := if t <? 0 then 0 else t in
      Ok (if t =? count then count - 1 else t)
    else UB
  | None => UB
  end.

(** StatsQuantile.cpp:315-376. None is NaN. *)
Definition getQuantile (s : quantile) (quantile : A) (allow_invalid_nbound : bool) : res (option Z * Quantile_Model.quantile) :=
  if q_count s =? 0 then Ok (None, s) else
  let! _ := invariant ((q_count s <=? q_nbound s) || allow_invalid_nbound) in
  let! _ := invariant (nle (of_int 0) quantile && nle quantile (of_int 1)) in
  let! s := sort_for_query s in
  let! _ := invariant (q_count s <? 10 ^ 14) in
  let! t := target_index (q_count s) quantile in
  let! v := getQuantileByBinSearchIndex s t in
  Ok (Some v, s).
End Query.

(** ** The constructor: choosing the number and size of the buffers.
    fact and choose (StatsQuantile.cpp:53-64) are computed exactly here, in
    doubles in the code. *)
Fixpoint fact_from (n : nat) (i acc : Z) : Z :=
  match n with O => acc | S n => fact_from n (i + 1) (acc * i) end.
Definition factZ (a : Z) : Z := fact_from (Z.to_nat (a - 1)) 2 1.
Definition chooseZ (b a : Z) : Z := factZ b / (factZ (b - a) * factZ a).

(** StatsQuantile.cpp:102 *)
Definition error_weight (b h : Z) : Z :=
  (h - 2) * chooseZ (b + h - 2) (h - 1) - chooseZ (b + h - 3) (h - 3) + chooseZ (b + h - 3) (h - 2).

(** The h loop, StatsQuantile.cpp:100-107: [n] iterations left before max_h = 40. *)
Fixpoint find_h (n : nat) (b h : Z) (limit : Q) : Z :=
  match n with
  | O => h
  | S n => if negb (Qle_bool (inject_Z (error_weight b h)) limit) then h - 1 else find_h n b (h + 1) limit
  end.

(** The b loop, StatsQuantile.cpp:99-115: b = 2 .. 29. None is best_b = -1. *)
Fixpoint find_bk (n : nat) (b : Z) (eps : Q) (nbound : Z) (best : option (Z * Z)) : option (Z * Z) :=
  match n with
  | O => best
  | S n =>
    let h := find_h 37 b 3 (2 * eps * inject_Z nbound) in
    let k := Qceiling (inject_Z nbound / inject_Z (chooseZ (b + h - 2) (h - 1))) in
    let best' :=
      if b * k <? 10 ^ 9 then
        match best with
        | None => Some (b, k)
        | Some (bb, bk) => if b * k <? bb * bk then Some (b, k) else best
        end
      else best in
    find_bk n (b + 1) eps nbound best'
  end.

(** StatsQuantile.cpp:75-129, with the memo table bk_cache left out (it only
    remembers results of this computation). A rational [eps]: NaN fails line 80. *)
Definition q_new (eps : Q) (in_nbound : Z) (lazy : bool) : res quantile :=
  let nbound := if in_nbound <? 100 then 100 else in_nbound in
  let! _ := invariant (negb (Qle_bool (1 # 5) eps)) in
  let! _ := invariant (1 <? in_nbound) in
  match find_bk 28 2 eps nbound None with
  | Some (b, k) =>
    let! _ := invariant ((0 <? b) && (0 <? k)) in
    let k := if k <? 10 then 10 else k in
    q_init nbound lazy (Z.to_nat b) (Z.to_nat k)
  | None => Abort
  end.
