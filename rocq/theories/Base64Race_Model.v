(** Model of the first use of the decoding table of ASCIIbeticalB64
    (include/Lintel/Base64.hpp:30-42) by threads that decode at the same time. A thread makes
    one step at a time; every read or write of the static pointer and of a table is a step of
    its own (sequentially consistent; a race is undefined behaviour in C++, the model shows
    what the interleavings would do). *)
From Coq Require Import List ZArith Bool.
From Verif Require Import Common Base64_Spec Base64_Model.
Import ListNotations.
Local Open Scope Z_scope.

Definition tid := nat.
(** Where a thread is in decode(data): not in a call; at the test of [inverse]; at the
    allocation; about to fill in entry [i]; about to read [inverse] to return it; in the
    decoding loop, with its table, the rest of the data, how many bytes are still to be
    written, trans_buf, bits and the bytes written, last one first. *)
Inductive pc :=
  | Idle
  | Check (data : list Z)
  | New (data : list Z)
  | Fill (data : list Z) (i : nat)
  | Return (data : list Z)
  | Loop (table : nat) (data rest : list Z) (k : nat) (trans_buf bits : Z) (acc : list Z).
(** The static pointer, the tables ever allocated (a pointer is an index), the threads. *)
Record state := mk_state { inverse : option nat; tables : list (list (option Z)); pcs : tid -> pc }.
(** A call of decode by thread [t] ended with this result. *)
Inductive event := EDecode (t : tid) (data : list Z) (r : res (list Z)).
Definition set {A} (f : nat -> A) (i : nat) (x : A) : nat -> A := fun j => if Nat.eqb j i then x else f j.
Definition at_pc (s : state) (t : tid) (p : pc) : state := mk_state (inverse s) (tables s) (set (pcs s) t p).

Definition init : state := mk_state None [] (fun _ => Idle).

(** table[(uint32_t)data[in_off]], Base64.hpp:56, as [detranslate] of Base64_Model but in a
    given table. *)
Definition lookup (table : list (option Z)) (c : Z) : res Z :=
  if 128 <=? c then UB
  else match nth_error table (Z.to_nat c) with Some (Some v) => Ok v | _ => UB end.

(** One step of thread [t]; an idle one starts to decode [data]. *)
Definition step (t : tid) (data : list Z) (s : state) : state * list event :=
  match pcs s t with
  | Idle => (at_pc s t (Check data), [])
  (* Base64.hpp:32-34 *)
  | Check d => (at_pc s t (match inverse s with Some _ => Return d | None => New d end), [])
  (* 35: new char[256], and the assignment *)
  | New d => (mk_state (Some (length (tables s))) (tables s ++ [repeat None 256]) (set (pcs s) t (Fill d 0)), [])
  (* 36-39: writes through the static pointer *)
  | Fill d i =>
      match inverse s with
      | None => (at_pc s t Idle, [EDecode t d UB])
      | Some p =>
          let table := upd (nth p (tables s) []) (Z.to_nat (translate (Z.of_nat i))) (Some (Z.of_nat i)) in
          (mk_state (inverse s) (upd (tables s) p table) (set (pcs s) t (if Nat.eqb i 63 then Return d else Fill d (S i))), [])
      end
  (* 40 or 33; then 48-49 *)
  | Return d =>
      match inverse s with
      | None => (at_pc s t Idle, [EDecode t d UB])
      | Some p =>
          let ret_size := s32 (Z.of_nat (length d) * 6 / 8) in
          if ret_size <? 0 then (at_pc s t Idle, [EDecode t d Abort])
          else (at_pc s t (Loop p d d (Z.to_nat ret_size) 0 0 []), [])
      end
  (* 54-65 *)
  | Loop p d rest k trans_buf bits acc =>
      match rest, k with
      | [], _ => (at_pc s t Idle, [EDecode t d (Ok (rev acc ++ repeat (translate 0) k))])
      | _, O => (at_pc s t Idle, [EDecode t d (Ok (rev acc))])
      | c :: r, S k' =>
          match lookup (nth p (tables s) []) c with
          | Ok v =>
              let trans_buf := w32 (trans_buf + w32 (v * 2 ^ (32 - 6 - bits))) in
              let bits := bits + 6 in
              if 8 <=? bits then (at_pc s t (Loop p d r k' (w32 (trans_buf * 2 ^ 8)) (bits - 8) (trans_buf / 2 ^ (32 - 8) :: acc)), [])
              else (at_pc s t (Loop p d r k trans_buf bits acc), [])
          | _ => (at_pc s t Idle, [EDecode t d UB])
          end
      end
  end.
(** A schedule: which thread makes the next step, and what it decodes if it is idle. *)
Definition schedule := list (tid * list Z).
Fixpoint run (sch : schedule) (s : state) : state * list event :=
  match sch with
  | [] => (s, [])
  | (t, d) :: r => let '(s1, e1) := step t d s in let '(s2, e2) := run r s1 in (s2, e1 ++ e2)
  end.
