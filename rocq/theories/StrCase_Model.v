(** Model of stringToDouble, stringIsBlank, stringIsSpace, downcaseString and upcaseString
    (src/StringUtil.cpp:329-366, 441-459). The functions of <ctype.h> are those of the "C"
    locale; char is signed, as on x86. A byte is a number from 0 to 255. *)
From Coq Require Import List ZArith Bool.
From Verif Require Import Common.
Import ListNotations.
Open Scope Z_scope.

(** A char converted to int *)
Definition char_int (b : Z) : Z := if b <? 128 then b else b - 256.
(** A function of <ctype.h>: its argument must be EOF (-1) or an unsigned char. *)
Definition ctype {A} (f : Z -> A) (c : Z) : res A := if (-1 <=? c) && (c <=? 255) then Ok (f c) else UB.
Definition c_isblank (c : Z) : bool := (c =? 32) || (c =? 9).
Definition c_isspace (c : Z) : bool := (c =? 32) || ((9 <=? c) && (c <=? 13)).
Definition c_tolower (c : Z) : Z := if (65 <=? c) && (c <=? 90) then c + 32 else c.
Definition c_toupper (c : Z) : Z := if (97 <=? c) && (c <=? 122) then c - 32 else c.

(** The loops of stringIsBlank and stringIsSpace, StringUtil.cpp:348-356 and 358-366 *)
Fixpoint all_chars (f : Z -> bool) (s : list Z) : res bool :=
  match s with
  | [] => Ok true
  | b :: r => let! y := ctype f (char_int b) in if negb y then Ok false else all_chars f r
  end.
Definition stringIsBlank (s : list Z) : res bool := all_chars c_isblank s.
Definition stringIsSpace (s : list Z) : res bool := all_chars c_isspace s.

(** The loops of downcaseString and upcaseString, StringUtil.cpp:441-449 and 451-459; the
    result is stored in a char. *)
Fixpoint map_chars (f : Z -> Z) (s : list Z) : res (list Z) :=
  match s with
  | [] => Ok []
  | b :: r => let! c := ctype f (char_int b) in let! r := map_chars f r in Ok (c mod 256 :: r)
  end.
Definition downcaseString (s : list Z) : res (list Z) := map_chars c_tolower s.
Definition upcaseString (s : list Z) : res (list Z) := map_chars c_toupper s.

(** stringToDouble, StringUtil.cpp:329-337. [strtod] is the library function on the
    characters before the first NUL: the value and how many characters it used. *)
Section D.
Variable V : Type.
Variable strtod : list Z -> V * nat.
Fixpoint c_str (s : list Z) : list Z :=
  match s with [] => [] | b :: r => if b =? 0 then [] else b :: c_str r end.
Definition stringToDouble (s : list Z) : res V :=
  let! _ := invariant (0 <? length s)%nat in
  let '(ret, endptr) := strtod (c_str s) in
  let! _ := invariant (nth endptr (c_str s ++ [0]) 0 =? 0) in
  Ok ret.
End D.
