(** Specification vocabulary for StringUtil. Strings are lists of byte values. *)
From Coq Require Import List ZArith Bool.
Import ListNotations.
Local Open Scope Z_scope.

Notation str := (list Z).
Definition byte_str (s : str) : Prop := Forall (fun c => 0 <= c < 256) s.

(** [pat] is a substring of [s]. *)
Definition occurs (pat s : str) : Prop := exists before after, s = before ++ pat ++ after.

(** The printable ASCII characters. *)
Definition printable (c : Z) : Prop := 32 <= c <= 126.
Definition is_hex_digit (c : Z) : Prop := 48 <= c <= 57 \/ 97 <= c <= 102 \/ 65 <= c <= 70.

(** Value of a hexadecimal digit of either case. *)
Definition hex_value (c : Z) : Z := if c <=? 57 then c - 48 else if c <=? 70 then c - 65 + 10 else c - 97 + 10.

(** Reader for the documented escape format: %% is a percent sign, %xx the byte
    with that hexadecimal code, anything else itself. *)
Fixpoint unescape (s : str) : str :=
  match s with
  | 37 :: a :: ((b :: r') as r) => if a =? 37 then 37 :: unescape r else (16 * hex_value a + hex_value b) :: unescape r'
  | 37 :: a :: [] => if a =? 37 then [37] else []
  | c :: r => c :: unescape r
  | [] => []
  end.

(** How MySQL reads a string literal opened by [quote] (34 or 39), see its
    reference manual: a backslash sequence stands for one character (for \% and
    \_ it stands for itself), a doubled quote for the quote, a single quote ends
    the literal. Result: the value and the text after the literal. *)
Definition mysql_sequence (c : Z) : str :=
  match c with
  | 48 => [0] | 98 => [8] | 116 => [9] | 110 => [10] | 114 => [13] | 90 => [26]
  | 37 => [92; 37] | 95 => [92; 95]
  | _ => [c]
  end.
Fixpoint mysql_read (quote : Z) (text : str) : option (str * str) :=
  match text with
  | [] => None
  | 92 :: [] => None
  | 92 :: c :: r => match mysql_read quote r with Some (v, rest) => Some (mysql_sequence c ++ v, rest) | None => None end
  | c :: r =>
    if c =? quote then
      match r with
      | d :: r' => if d =? quote then match mysql_read quote r' with Some (v, rest) => Some (quote :: v, rest) | None => None end
                   else Some ([], r)
      | [] => Some ([], [])
      end
    else match mysql_read quote r with Some (v, rest) => Some (c :: v, rest) | None => None end
  end.

(** How a CSV reader reads a field: a field starting with a quote runs to the
    closing quote, doubled quotes standing for one; any other field runs to the
    next comma or line end. Result: the value and the rest. *)
Fixpoint csv_quoted (text : str) : option (str * str) :=
  match text with
  | [] => None
  | 34 :: r => match r with
               | 34 :: r' => match csv_quoted r' with Some (v, rest) => Some (34 :: v, rest) | None => None end
               | _ => Some ([], r)
               end
  | c :: r => match csv_quoted r with Some (v, rest) => Some (c :: v, rest) | None => None end
  end.
Fixpoint csv_plain (text : str) : str * str :=
  match text with
  | [] => ([], [])
  | c :: r => if (c =? 44) || (c =? 10) || (c =? 13) then ([], text) else let '(v, rest) := csv_plain r in (c :: v, rest)
  end.
Definition csv_read (text : str) : option (str * str) :=
  match text with
  | 34 :: r => csv_quoted r
  | _ => Some (csv_plain text)
  end.
