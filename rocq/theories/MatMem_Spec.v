(** Specification of Matrix as a container. *)
From Coq Require Import List Arith ZArith Bool.
From Verif Require Import Common MatMem_Model.
Import ListNotations.
Open Scope Z_scope.

Section S.
Context {V : Type} (zero : V).
(** A matrix: its sizes and its elements. *)
Record table : Type := mk_table { rows : Z; cols : Z; elem : Z -> Z -> V }.
Definition zeros (r c : Z) : table := mk_table r c (fun _ _ => zero).
Definition replace (t : table) (row col : Z) (v : V) : table :=
  mk_table (rows t) (cols t) (fun r c => if (r =? row) && (c =? col) then v else elem t r c).
Definition replace_row (t : table) (row : Z) (vs : list V) : table :=
  mk_table (rows t) (cols t) (fun r c => if r =? row then nth (Z.to_nat c) vs (elem t r c) else elem t r c).

(** Sizes: unsigned ints whose product is one. *)
Definition size_ok (r c : Z) : bool := (0 <=? r) && (r <? 2 ^ 32) && (0 <=? c) && (c <? 2 ^ 32) && (r * c <? 2 ^ 32).
Definition inside (t : table) (row col : Z) : bool := (0 <=? row) && (row <? rows t) && (0 <=? col) && (col <? cols t).
(** The matrices of a program by number. The client must use living matrices, indices inside
    of them, as many values as columns for a row, and make no copies: else UB. *)
Definition tstep (ts : list (option table)) (o : op V) : res (list (option table) * option V) :=
  let at_ i := match nth_error ts i with Some (Some t) => Ok t | _ => UB end in
  match o with
  | New r c => if size_ok r c then Ok (ts ++ [Some (zeros r c)], None) else UB
  | Resize i r c => let! _ := at_ i in if size_ok r c then Ok (upd ts i (Some (zeros r c)), None) else UB
  | Set_ i row col v => let! t := at_ i in if inside t row col then Ok (upd ts i (Some (replace t row col v)), None) else UB
  | Get_ i row col => let! t := at_ i in if inside t row col then Ok (ts, Some (elem t row col)) else UB
  | SetRow i row vs => let! t := at_ i in
      if (0 <=? row) && (row <? rows t) && (Z.of_nat (length vs) =? cols t) then Ok (upd ts i (Some (replace_row t row vs)), None) else UB
  | Delete i => let! _ := at_ i in Ok (upd ts i None, None)
  | Copy _ => UB
  end.
End S.

(** How many are there (not None), and how many resize calls. *)
Definition there {A} (l : list (option A)) : nat := length (filter (fun o => match o with Some _ => true | None => false end) l).
Definition resizes {V} (l : list (op V)) : nat := length (filter (fun o => match o with Resize _ _ _ => true | _ => false end) l).
