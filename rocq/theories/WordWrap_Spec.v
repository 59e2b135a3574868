(** Specification of word wrapping, line by line. *)
From Coq Require Import List Arith ZArith.
From Verif Require Import Common WordWrap_Model.
Import ListNotations.

(** The lines of a text and their inverse. *)
Fixpoint lines (s : list Z) : list (list Z) :=
  match s with
  | [] => [[]]
  | c :: r => if (c =? NL)%Z then [] :: lines r
              else match lines r with [] => [[c]] | h :: t => (c :: h) :: t end
  end.
Fixpoint unlines (l : list (list Z)) : list Z :=
  match l with
  | [] => []
  | [h] => h
  | h :: r => h ++ NL :: unlines r
  end.

(** How one line is split for width [w]: it stays when it fits; otherwise it is cut
    at the last space that leaves between half a line and a line, which disappears;
    when there is none it is cut after [w] characters. *)
Inductive wraps (w : nat) : list Z -> list (list Z) -> Prop :=
| W_fits : forall l, length l <= w -> wraps w l [l]
| W_space : forall a b out, w / 2 <= length a <= w -> w < length (a ++ SPACE :: b) ->
    (forall k, length a < k <= w -> nth_error (a ++ SPACE :: b) k <> Some SPACE) ->
    wraps w b out -> wraps w (a ++ SPACE :: b) (a :: out)
| W_cut : forall a b out, length a = w -> b <> [] ->
    (forall k, w / 2 <= k <= w -> nth_error (a ++ b) k <> Some SPACE) ->
    wraps w b out -> wraps w (a ++ b) (a :: out).

(** The second text is the first with some spaces turned into line ends and some
    line ends added. *)
Inductive reflowed : list Z -> list Z -> Prop :=
| R_nil : reflowed [] []
| R_keep : forall c s t, reflowed s t -> reflowed (c :: s) (c :: t)
| R_space : forall s t, reflowed s t -> reflowed (SPACE :: s) (NL :: t)
| R_insert : forall s t, reflowed s t -> reflowed s (NL :: t).
