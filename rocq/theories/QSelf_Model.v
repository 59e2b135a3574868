(** Model of StatsQuantile::add(const Stats &) called with the object itself,
    src/StatsQuantile.cpp:243-306 with stat == this. Everything read through stat
    is read from the state at that moment, after the additions already made.
    Fuel bounds the number of iterations of each loop. *)
From Coq Require Import List Arith ZArith Bool.
From Verif Require Import Common Quantile_Model.
Import ListNotations.
Local Open Scope Z_scope.

(** The loops over k, 294-296 and 302-304. [at_] is the subscript of buffer_weight:
    the fixed i in the first, stat->cur_buffer in the second. *)
Fixpoint self_times (fuel : nat) (k : Z) (at_ : quantile -> res nat) (v : Z) (s : quantile) : res quantile :=
  let! i := at_ s in
  let! w := get (buffer_weight s) i in
  if k <? w then
    match fuel with
    | O => Fuel
    | S f => let! s := addQuantile s v in self_times f (k + 1) at_ v s
    end
  else Ok s.

(** The loops over j, 292-297 and 300-305. abuf is the memory of buffer [b]: buffers
    stay where they are, collapse() copies into them. [lim] is stat->buffer_size or
    stat->cur_buffer_pos. *)
Fixpoint self_values (fuel n : nat) (j : nat) (lim : quantile -> nat) (b : nat) (at_ : quantile -> res nat) (s : quantile) : res quantile :=
  if (j <? lim s)%nat then
    match fuel with
    | O => Fuel
    | S f =>
      let! c := buffer_of s b in
      let! v := get c j in
      match v with
      | Some v => let! s := self_times n 0 at_ v s in self_values f n (S j) lim b at_ s
      | None => UB
      end
    end
  else Ok s.

(** The loop over i, 289-298 *)
Fixpoint self_buffers (fuel n : nat) (i : nat) (s : quantile) : res quantile :=
  if Z.of_nat i <? cur_buffer s then
    match fuel with
    | O => Fuel
    | S f => let! s := self_values n n 0 buffer_size i (fun _ => Ok i) s in self_buffers f n (S i) s
    end
  else Ok s.

(** StatsQuantile.cpp:243-306. Stats::add (248) doubles the count. For an empty object
    269 calls memcpy with overlapping objects, which is undefined. *)
Definition q_self_merge (n : nat) (s : quantile) : res quantile :=
  let s := set_count s (q_count s + q_count s) in
  if (cur_buffer s =? -1) || ((cur_buffer s =? 0) && (cur_buffer_pos s =? 0)%nat) then UB
  else
    let! s := self_buffers n n 0 s in
    let! b := index (cur_buffer s) in
    self_values n n 0 cur_buffer_pos b (fun s => index (cur_buffer s)) s.
