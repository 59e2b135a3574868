(** Specification of StatsMaker. *)
From Coq Require Import List Arith ZArith Bool.
From Verif Require Import Common Maker_Model.
Import ListNotations.

Section S.
Context {D : Type} (simple : D).

(** The names that apply to [n]: itself, and what is left of it after taking away
    a group of dashes and everything after it. *)
Definition applies (n p : list Z) : Prop :=
  p = n \/ exists q c rest, p = q ++ [c] /\ c <> DASH /\ n = p ++ DASH :: rest.

(** The setting of a name: the latest one. *)
Fixpoint setting (l : list (mop D)) (n : list Z) (now : option D) : option D :=
  match l with
  | [] => now
  | MSet m k :: r => setting r n (if list_eq_dec Z.eq_dec m n then Some k else now)
  | MMake _ :: r => setting r n now
  end.

(** [k] is the definition for [n] when [set] gives the settings. *)
Definition chosen (set : list Z -> option D) (n : list Z) (k : D) : Prop :=
  (exists p, applies n p /\ set p = Some k /\ forall p', applies n p' -> set p' <> None -> length p' <= length p) \/
  ((forall p, applies n p -> set p = None) /\ k = match set DEFAULT with Some d => d | None => simple end).

(** The makes of a program with what each must use. *)
Inductive makes : list (mop D) -> list (mop D) -> list D -> Prop :=
| M_nil : forall past, makes past [] []
| M_set : forall past n k l ks, makes (past ++ [MSet n k]) l ks -> makes past (MSet n k :: l) ks
| M_make : forall past n l k ks, chosen (fun p => setting past p None) n k -> makes past l ks -> makes past (MMake n :: l) (k :: ks).
End S.
