(** Specification of PriorityQueue: a multiset (a list up to permutation) of
    elements ranked by [le a b] = "a is no more important than b". *)
From Coq Require Import List Arith NArith Bool Permutation Sorted.
From Verif Require Import Common.
Import ListNotations.

Section Spec.
Context {T : Type}.
Variable le : T -> T -> bool.

Inductive pqop :=
| PPush (v : T)
| PTop
| PPop                    (* x = top(); pop(); the outcome is x *)
| PPopBottomUp            (* x = top(); pop_bottom_up_heuristic(); the outcome is x *)
| PReplaceTop (v : T)     (* x = top(); replaceTop(v); the outcome is x *)
| PDrain                  (* while(!empty()) { collect(top()); pop(); } *)
| PSize | PEmpty | PClear
| PReserve (amt : nat).

Inductive pqout := QUnit | QElem (v : T) | QNum (n : nat) | QBool (b : bool) | QList (l : list T).

(** [x] is queued and nothing queued is more important. *)
Definition most_important (x : T) (l : list T) : Prop := In x l /\ forall y, In y l -> le y x = true.

Inductive pqstep : list T -> pqop -> pqout -> list T -> Prop :=
| S_push : forall l v, pqstep l (PPush v) QUnit (v :: l)
| S_top : forall l x, most_important x l -> pqstep l PTop (QElem x) l
| S_pop : forall l x l', most_important x l -> Permutation l (x :: l') -> pqstep l PPop (QElem x) l'
| S_popbu : forall l x l', most_important x l -> Permutation l (x :: l') -> pqstep l PPopBottomUp (QElem x) l'
| S_replace : forall l x l' v, most_important x l -> Permutation l (x :: l') -> pqstep l (PReplaceTop v) (QElem x) (v :: l')
| S_drain : forall l out, Permutation out l -> StronglySorted (fun a b => le b a = true) out ->
            pqstep l PDrain (QList out) []
| S_size : forall l, pqstep l PSize (QNum (length l)) l
| S_empty : forall l, pqstep l PEmpty (QBool (length l =? 0)) l
| S_clear : forall l, pqstep l PClear QUnit []
| S_reserve : forall amt, pqstep [] (PReserve amt) QUnit [].

Definition needs_element (o : pqop) : bool :=
  match o with PTop | PPop | PPopBottomUp | PReplaceTop _ => true | _ => false end.

(** Legal observations of a history; nothing is claimed after a call on an
    empty queue that needs an element. *)
Inductive pqhist : list T -> list pqop -> list (res pqout) -> Prop :=
| H_nil : forall l, pqhist l [] []
| H_ok : forall l o out l' ops outs, pqstep l o out l' -> pqhist l' ops outs -> pqhist l (o :: ops) (Ok out :: outs)
| H_reserve : forall l amt ops, l <> [] -> pqhist l (PReserve amt :: ops) [Abort]
| H_misuse : forall o ops outs, needs_element o = true -> pqhist [] (o :: ops) outs.
End Spec.
Arguments pqop : clear implicits.
Arguments pqout : clear implicits.
