(** The arithmetic a model of floating-point code is written over. The same model
    text is used with IEEE doubles ([ieee]) and with exact rationals extended with
    the IEEE special values ([exact]). *)
From Coq Require Import ZArith QArith Qround Bool.
From Flocq Require Import Core BinarySingleNaN.
From Verif Require Import Common Double64.
Local Open Scope Z_scope.

Record arith : Type := {
  num :> Type;
  nadd : num -> num -> num;
  nsub : num -> num -> num;
  nmul : num -> num -> num;
  ndiv : num -> num -> num;
  nopp : num -> num;
  nlt : num -> num -> bool;        (* < *)
  nle : num -> num -> bool;        (* <= *)
  neq : num -> num -> bool;        (* == *)
  of_int : Z -> num;               (* conversion of an integer *)
  pinf : num;                      (* Double::Inf *)
  nfloor : num -> option Z         (* floor, None for NaN and infinities *)
}.
Arguments nadd {_}.
Arguments nsub {_}.
Arguments nmul {_}.
Arguments ndiv {_}.
Arguments nopp {_}.
Arguments nlt {_}.
Arguments nle {_}.
Arguments neq {_}.
Arguments of_int {_}.
Arguments pinf {_}.
Arguments nfloor {_}.

(** (unsigned)floor(x): undefined when the floor does not fit in [bits] bits. *)
Definition floor_unsigned {A : arith} (bits : Z) (x : A) : res Z :=
  match nfloor x with
  | Some z => if (0 <=? z) && (z <? 2 ^ bits) then Ok z else UB
  | None => UB
  end.

(** IEEE 754 double precision. *)
Definition dfloor (x : double) : option Z :=
  if is_finite x then
    let z := Btrunc x in Some (if Bltb x (of_Z z) then z - 1 else z)
  else None.
Definition ieee : arith :=
  {| num := double; nadd := dadd; nsub := dsub; nmul := dmul; ndiv := ddiv; nopp := Bopp;
     nlt := Bltb; nle := Bleb; neq := Beqb; of_int := of_Z; pinf := B754_infinity false; nfloor := dfloor |}.

(** Exact rationals with infinities and NaN. *)
Inductive xnum : Type := Fin (q : Q) | Inf (negative : bool) | NaN.
Definition qsign (q : Q) : bool := negb (Qle_bool 0 q).
Definition xopp (x : xnum) : xnum := match x with Fin q => Fin (- q) | Inf s => Inf (negb s) | NaN => NaN end.
Definition xadd (x y : xnum) : xnum :=
  match x, y with
  | Fin a, Fin b => Fin (a + b)
  | Inf s, Inf t => if Bool.eqb s t then Inf s else NaN
  | Inf s, Fin _ | Fin _, Inf s => Inf s
  | _, _ => NaN
  end.
Definition xsub (x y : xnum) : xnum := xadd x (xopp y).
Definition xmul (x y : xnum) : xnum :=
  match x, y with
  | Fin a, Fin b => Fin (a * b)
  | Inf s, Inf t => Inf (xorb s t)
  | Inf s, Fin a | Fin a, Inf s => if Qeq_bool a 0 then NaN else Inf (xorb s (qsign a))
  | _, _ => NaN
  end.
Definition xdiv (x y : xnum) : xnum :=
  match x, y with
  | Fin a, Fin b => if Qeq_bool b 0 then (if Qeq_bool a 0 then NaN else Inf (qsign a)) else Fin (a / b)
  | Inf s, Fin b => Inf (xorb s (qsign b))
  | Fin _, Inf _ => Fin 0
  | _, _ => NaN
  end.
Definition xle (x y : xnum) : bool :=
  match x, y with
  | Fin a, Fin b => Qle_bool a b
  | NaN, _ | _, NaN => false
  | Inf true, _ | _, Inf false => true
  | _, _ => false
  end.
Definition xlt (x y : xnum) : bool :=
  match x, y with
  | Fin a, Fin b => negb (Qle_bool b a)
  | NaN, _ | _, NaN => false
  | Inf true, Inf true | Inf false, Inf false => false
  | Inf true, _ | _, Inf false => true
  | _, _ => false
  end.
Definition xeq (x y : xnum) : bool :=
  match x, y with
  | Fin a, Fin b => Qeq_bool a b
  | Inf s, Inf t => Bool.eqb s t
  | _, _ => false
  end.
Definition exact : arith :=
  {| num := xnum; nadd := xadd; nsub := xsub; nmul := xmul; ndiv := xdiv; nopp := xopp;
     nlt := xlt; nle := xle; neq := xeq; of_int := fun z => Fin (inject_Z z); pinf := Inf false;
     nfloor := fun x => match x with Fin q => Some (Qfloor q) | _ => None end |}.
