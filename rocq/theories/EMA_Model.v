(** Model of StatsEMA (include/Lintel/StatsEMA.hpp, src/StatsEMA.cpp) over an
    abstract arithmetic. *)
From Coq Require Import List Arith ZArith QArith.
From Verif Require Import Common Arith Stats_Model.
Import ListNotations.
Local Open Scope Z_scope.

(** StatsEMA.hpp:53-54: three vectors of the same length, one entry per decay rate. *)
Record ema (A : arith) : Type := mkEma {
  em_stats : stats A;
  ema_values : list A;
  decay_rates : list A;
  count_low : list bool }.
Arguments mkEma {A}.
Arguments em_stats {A}.
Arguments ema_values {A}.
Arguments decay_rates {A}.
Arguments count_low {A}.

Section M.
Variable A : arith.

(** StatsEMA.cpp:91-104; the constructor from one rate (16-21) calls it with a
    vector of one. *)
Definition em_new (rates : list A) : res (ema A) :=
  let! _ := invariant (0 <? length rates)%nat in
  let! _ := invariant (forallb (fun d => nlt (of_int 0) d && nlt d (of_int 1)) rates) in
  Ok (mkEma (st_new A) (repeat (of_int 0) (length rates)) rates (repeat true (length rates))).

(** updateEMA, StatsEMA.hpp:48-52 *)
Definition updateEMA (e d value : A) : A := nadd (nmul (nsub (of_int 1) d) e) (nmul d value).

(** The loop over i, StatsEMA.cpp:42-53; [st] is the base object after
    Stats::add(value), whose count and mean it reads. *)
Fixpoint em_loop (st : stats A) (value : A) (is_ : list nat) (s : ema A) : res (ema A) :=
  match is_ with
  | [] => Ok s
  | i :: r =>
    let! low := get (count_low s) i in
    let! d := get (decay_rates s) i in
    let! e := get (ema_values s) i in
    let! s :=
      (if low then
         if nlt (ndiv (of_int 1) d) (of_int (st_count A st)) then
           let! cl := put (count_low s) i false in
           let! ev := put (ema_values s) i (updateEMA e d value) in
           Ok (mkEma (em_stats s) ev (decay_rates s) cl)
         else
           let! ev := put (ema_values s) i (st_mean A st) in
           Ok (mkEma (em_stats s) ev (decay_rates s) (count_low s))
       else
         let! ev := put (ema_values s) i (updateEMA e d value) in
         Ok (mkEma (em_stats s) ev (decay_rates s) (count_low s))) in
    em_loop st value r s
  end.

(** add(value), StatsEMA.cpp:38-54 *)
Definition em_add (s : ema A) (value : A) : res (ema A) :=
  let st := st_add A (em_stats s) value in
  em_loop st value (seq 0 (length (ema_values s))) (mkEma st (ema_values s) (decay_rates s) (count_low s)).

(** reset and add(Stats), StatsEMA.cpp:32-36 and 56-58: FATAL_ERROR *)
Definition em_reset (s : ema A) : res (ema A) := Abort.
Definition em_merge (s : ema A) (o : stats A) : res (ema A) := Abort.

(** getEMA, StatsEMA.cpp:60-67 *)
Definition getEMA (s : ema A) (i : nat) : res A :=
  let! _ := invariant (i <? length (ema_values s))%nat in get (ema_values s) i.

(** minEMA and maxEMA, StatsEMA.cpp:69-89 *)
Definition minEMA (s : ema A) : res A :=
  let! v := get (ema_values s) 0 in
  Ok (fold_left (fun ret x => if nlt x ret then x else ret) (tl (ema_values s)) v).
Definition maxEMA (s : ema A) : res A :=
  let! v := get (ema_values s) 0 in
  Ok (fold_left (fun ret x => if nlt ret x then x else ret) (tl (ema_values s)) v).

(** Adding samples one after the other. *)
Fixpoint em_add_all (s : ema A) (l : list A) : res (ema A) :=
  match l with
  | [] => Ok s
  | v :: r => let! s := em_add s v in em_add_all s r
  end.
End M.
