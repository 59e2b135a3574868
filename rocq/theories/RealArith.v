(** Exact real arithmetic with logarithm and exponential, for models of code that uses log()
    and exp(). Whatever leaves the reals (a division by zero, the logarithm of a number that
    is not positive, an infinity) is [RUndef]; it compares as NaN does. *)
From Coq Require Import Reals ZArith Bool.
From Flocq Require Import Core.
From Verif Require Import Common Arith.
Local Open Scope R_scope.

Inductive rnum : Type := RFin (r : R) | RUndef.
Definition rop (f : R -> R -> R) (x y : rnum) : rnum :=
  match x, y with RFin a, RFin b => RFin (f a b) | _, _ => RUndef end.
Definition rcmp (f : R -> R -> bool) (x y : rnum) : bool :=
  match x, y with RFin a, RFin b => f a b | _, _ => false end.
Definition reals : arith :=
  {| num := rnum; nadd := rop Rplus; nsub := rop Rminus; nmul := rop Rmult;
     ndiv := fun x y => match x, y with RFin a, RFin b => if Req_EM_T b 0 then RUndef else RFin (a / b) | _, _ => RUndef end;
     nopp := fun x => match x with RFin a => RFin (- a) | RUndef => RUndef end;
     nlt := rcmp (fun a b => if Rlt_dec a b then true else false);
     nle := rcmp (fun a b => if Rle_dec a b then true else false);
     neq := rcmp (fun a b => if Req_EM_T a b then true else false);
     of_int := fun z => RFin (IZR z); pinf := RUndef;
     nfloor := fun x => match x with RFin a => Some (Zfloor a) | RUndef => None end |}.
Definition rlog (x : reals) : reals :=
  match x with RFin a => if Rlt_dec 0 a then RFin (ln a) else RUndef | RUndef => RUndef end.
Definition rexp (x : reals) : reals :=
  match x with RFin a => RFin (exp a) | RUndef => RUndef end.
