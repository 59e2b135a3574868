(** Specification vocabulary for ASCIIbeticalB64: numerals in base 64 written
    with the documented alphabet, byte strings as numerals in base 256, and
    lexicographic comparison. *)
From Coq Require Import List ZArith String Ascii.
Import ListNotations.
Local Open Scope Z_scope.

Definition alphabet : string := "+,0123456789ABCDEFGHIJKLMNOPQRSTUVWXYZabcdefghijklmnopqrstuvwxyz".
Definition codes (s : string) : list Z := map (fun c => Z.of_N (N_of_ascii c)) (list_ascii_of_string s).
Definition digit_char (d : Z) : Z := nth (Z.to_nat d) (codes alphabet) 0.

(** Value of a digit string, most significant first. *)
Definition numeral (base : Z) (ds : list Z) : Z := fold_left (fun a d => a * base + d) ds 0.
Definition digits_of (base : Z) (ds : list Z) : Prop := Forall (fun d => 0 <= d < base) ds.
Definition byte_string (l : list Z) : Prop := digits_of 256 l.

(** [s] is the base-64 numeral of [v]. *)
Definition base64_numeral (s : list Z) (v : Z) : Prop :=
  exists ds, s = map digit_char ds /\ digits_of 64 ds /\ numeral 64 ds = v.

(** Dictionary order on strings. *)
Fixpoint lex_compare (a b : list Z) : comparison :=
  match a, b with
  | [], [] => Eq
  | [], _ :: _ => Lt
  | _ :: _, [] => Gt
  | x :: a', y :: b' => match x ?= y with Eq => lex_compare a' b' | c => c end
  end.
