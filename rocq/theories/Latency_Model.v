(** Model of Clock::estimateTodTfracLatency and Clock::initialMeasurements,
    src/Clock.cpp:145-244. What the clock and the cycle counter read is a script; a loop
    that asks for more than it holds is Fuel. Doubles are rationals; count (a uint32_t)
    does not wrap. *)
From Coq Require Import List Arith ZArith QArith Bool.
From Verif Require Import Common.
Import ListNotations.
Local Open Scope Z_scope.

(** std::sort *)
Section Sort.
Context {A : Type}.
Variable leb : A -> A -> bool.
Fixpoint insert_by (x : A) (l : list A) : list A :=
  match l with
  | [] => [x]
  | y :: r => if leb x y then x :: l else y :: insert_by x r
  end.
Fixpoint sort_by (l : list A) : list A := match l with [] => [] | x :: r => insert_by x (sort_by r) end.
End Sort.

(** The first waiting loop, lines 153-155: the first reading that differs *)
Fixpoint wait_change (start : Z) (script : list Z) : res (Z * list Z) :=
  match script with
  | [] => Fuel
  | cur :: rest => if start =? cur then wait_change start rest else Ok (cur, rest)
  end.
(** The second one, lines 158-160 *)
Fixpoint count_same (start : Z) (script : list Z) (count : Z) : res (Z * Z * list Z) :=
  match script with
  | [] => Fuel
  | cur :: rest => if start =? cur then count_same start rest (count + 1) else Ok (count, cur, rest)
  end.
(** One turn of the loop, lines 149-168: None is "try again" *)
Definition quantum (script : list Z) : res (option Q * list Z) :=
  match script with
  | [] => Fuel
  | start :: rest =>
    let! (cur, rest) := wait_change start rest in
    let start := cur in
    let! (count, cur, rest) := count_same start rest 1 in
    if cur <? start then Ok (None, rest)
    else
      let! _ := invariant (start <? cur) in
      Ok (Some ((inject_Z (cur - start) / 4294967296) / inject_Z count)%Q, rest)
  end.
(** The loop; [need] is nmeasurements - i *)
Fixpoint quanta (fuel : nat) (need : nat) (script : list Z) : res (list Q) :=
  match need, fuel with
  | O, _ => Ok []
  | _, O => Fuel
  | S n, S f =>
    let! (m, rest) := quantum script in
    match m with
    | None => quanta f (S n) rest
    | Some q => let! r := quanta f n rest in Ok (q :: r)
    end
  end.
(** estimateTodTfracLatency; ceil(5 * 0.1) is 1 *)
Definition estimateTodTfracLatency (script : list Z) : res Q :=
  let! ms := quanta (S (length script)) 5 script in
  get (sort_by Qle_bool ms) 1.

(** The cycle counter before, the time of day, and the counter after *)
Definition triple : Type := Z * Z * Z.
(** Tll is a signed 64-bit number *)
Definition to_tll (z : Z) : Z := let m := z mod 2 ^ 64 in if m <? 2 ^ 63 then m else m - 2 ^ 64.
(** The first loop of initialMeasurements, lines 185-194 *)
Fixpoint init_loop (script : list triple) (i : nat) (prev : Z) (elapsed deltas : list Z) : res (list Z * list Z) :=
  if ((i <? 500) || (length deltas <? 20))%nat then
    match script with
    | [] => Fuel
    | (a, cur, b) :: rest =>
      let elapsed := elapsed ++ [to_tll (b - a)] in
      if 0 <? (cur - prev) mod 2 ^ 64 then init_loop rest (S i) cur elapsed (deltas ++ [(cur - prev) mod 2 ^ 64])
      else init_loop rest (S i) prev elapsed deltas
    end
  else Ok (elapsed, deltas).
(** Lines 178-206: max_recalibrate_measure_time and estimated_todtfrac_quanta *)
Definition initialMeasurements (prev : Z) (script : list triple) : res (Z * Z) :=
  let! (elapsed, deltas) := init_loop script 0 prev [] [] in
  let! e := get (sort_by Z.leb elapsed) (length elapsed / 4) in
  let! d := get (sort_by Z.leb deltas) (length deltas / 4) in
  Ok (2 * e, d).
(** Lines 236-242: estimated_cycles_per_quanta from the ten measurements, which are positive;
    10 * 0.25 and 10 * 0.75 are cut off to 2 and 7 *)
Definition cycles_per_quanta (cycles : list Z) : Z :=
  (2 * fold_right Z.add 0 (firstn 5 (skipn 2 cycles)) + 5) / 10.
