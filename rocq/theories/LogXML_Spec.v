(** What an XML element says about debug levels. *)
From Coq Require Import List ZArith Bool.
From Verif Require Import Common StringUtil_Spec StrInt_Spec Log_Spec.
Import ListNotations.
Local Open Scope Z_scope.

(** The value of an attribute. *)
Definition attribute (n : list (str * str)) (name : str) : option str :=
  match find (fun a => same (fst a) name) n with Some (_, v) => Some v | None => None end.
(** The value of a decimal numeral, with a plus sign or without any. *)
Definition digits_value (s : str) : option Z :=
  match s with
  | [] => None
  | _ => if forallb (fun c => (48 <=? c) && (c <=? 57)) s then Some (value 10 (map (fun c => c - 48) s)) else None
  end.
Definition numeral (s : str) : option Z := match s with 43 :: r => digits_value r | _ => digits_value s end.
(** The level an element asks for: 1 when none is given, otherwise the number; none when
    that is not a number below 255. *)
Definition level_of (n : list (str * str)) (name : str) : option Z :=
  match attribute n name with
  | None | Some [] => Some 1
  | Some s => match numeral s with Some v => if v <? 255 then Some v else None | None => None end
  end.
Definition category_of (n : list (str * str)) (name : str) : str := match attribute n name with Some c => c | None => [] end.
