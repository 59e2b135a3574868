(** Model of basicWordWrap (src/ProgramOptions.cpp). Characters are bytes, 0..255.
    Positions are natural numbers: the code keeps processed_to in 32 bits, the
    model is for texts of less than 2^31 characters. *)
From Coq Require Import List Arith ZArith.
From Verif Require Import Common.
Import ListNotations.

Notation SPACE := 32%Z.
Notation NL := 10%Z.

(** std::string::find("\n", from) *)
Fixpoint first_nl (s : list Z) : option nat :=
  match s with
  | [] => None
  | c :: r => if (c =? NL)%Z then Some 0 else option_map S (first_nl r)
  end.
Definition find_nl (s : list Z) (from : nat) : option nat := option_map (Nat.add from) (first_nl (skipn from s)).

(** for (; pos > lim; --pos) if (res[pos] == ' ') break; with pos = lim + k,
    ProgramOptions.cpp:160-164 *)
Fixpoint scan (k lim : nat) (s : list Z) : res nat :=
  match k with
  | O => Ok lim
  | S k' => let! c := get s (lim + k) in if (c =? SPACE)%Z then Ok (lim + k) else scan k' lim s
  end.

(** The part after the test for fitting, ProgramOptions.cpp:157-174: the new text
    and the new processed_to *)
Definition break_line (s : list Z) (p w : nat) : res (list Z * nat) :=
  let pos := p + w in
  let! _ := invariant (pos <? length s) in
  let! pos := scan (w - w / 2) (p + w / 2) s in
  let! _ := invariant ((p <? pos) && (pos <? length s)) in
  let! c := get s pos in
  if (c =? SPACE)%Z then let! s := put s pos NL in Ok (s, pos + 1)
  else Ok (firstn (p + w) s ++ [NL] ++ skipn (p + w) s, p + w + 1).

(** One iteration, ProgramOptions.cpp:144-174; None for the break that ends the loop *)
Definition wrap_step (s : list Z) (p w : nat) : res (option (list Z * nat)) :=
  match find_nl s p with
  | None => if length s - p <=? w then Ok None else let! x := break_line s p w in Ok (Some x)
  | Some pos => if w <? pos - p then let! x := break_line s p w in Ok (Some x) else Ok (Some (s, pos + 1))
  end.

Fixpoint wrap_loop (fuel : nat) (s : list Z) (p w : nat) : res (list Z) :=
  match fuel with
  | O => Fuel
  | S fuel =>
    let! r := wrap_step s p w in
    match r with
    | None => Ok s
    | Some (s, p) => if p <? length s then wrap_loop fuel s p w else Ok s
    end
  end.

(** basicWordWrap, ProgramOptions.cpp:134-177; [help_width] is getHelpWidth() *)
Definition basicWordWrap (help_width : nat) (text : list Z) : res (list Z) :=
  let w := if help_width <? 10 then 10 else help_width in
  wrap_loop (S (length text)) text 0 w.
