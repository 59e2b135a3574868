(** Clients that keep pointers into a HashTable, and what such a pointer should show. *)
From Coq Require Import List NArith Bool.
From Verif Require Import Common HashTable_Spec HashTable_Model HashPtr_Model.
Import ListNotations.

Section Spec.
Context {D : Type}.
Variable hashfn : D -> N.
Variable equal : D -> D -> bool.
Variable default : D.
Variable grow : nat -> nat.

(** What a client does: an operation on the table, or a write through a pointer *)
Inductive cmd := CTab (o : top D) | CWrite (p : ptr) (d : D).
(** [b] has the key of [a] *)
Definition same_key (a b : D) : Prop := hashfn b = hashfn a /\ forall k, equal k b = equal k a.

(** A client that writes only through pointers to elements in the table (one a lookup returns
    at that time) and does not change keys *)
Inductive run : vt D -> list cmd -> vt D -> Prop :=
| run_nil s : run s [] s
| run_op s o s1 out prog s2 : vstep hashfn equal default grow s o = Ok (s1, out) -> run s1 prog s2 ->
    run s (CTab o :: prog) s2
| run_write s p k d0 d s1 prog s2 : vlookup hashfn equal s k = Ok (Some p) -> vderef s p = Ok d0 -> same_key d0 d ->
    vwrite s p d = Ok s1 -> run s1 prog s2 -> run s (CWrite p d :: prog) s2.
Definition vreachable (s : vt D) : Prop :=
  exists num den s0 prog, vnew num den = Ok s0 /\ run s0 prog s.

(** [p] was just returned by add, addOrReplace or lookup, and points to [d] *)
Inductive obtained : vt D -> ptr -> D -> Prop :=
| ob_add s d s' p : vreachable s -> vadd hashfn grow s d = Ok (s', p) -> obtained s' p d
| ob_new s d s' p : vreachable s -> vaddOrReplace hashfn equal grow s d = Ok (s', p, false) -> obtained s' p d
| ob_old s d s' p d' : vreachable s -> vaddOrReplace hashfn equal grow s d = Ok (s', p, true) ->
    vderef s' p = Ok d' -> obtained s' p d'
| ob_lookup s k p d : vreachable s -> vlookup hashfn equal s k = Ok (Some p) -> vderef s p = Ok d -> obtained s p d.

(** The operation does not remove the element [d] *)
Definition spares (o : top D) (d : D) : Prop :=
  match o with
  | TRemove k _ | TFindErase k => equal k d = false
  | TEraseIf f => f d = false
  | TClear => False
  | _ => True
  end.
(** What was last written through [p], or [d] *)
Fixpoint last_written (p : ptr) (d : D) (prog : list cmd) : D :=
  match prog with
  | [] => d
  | CWrite q d' :: r => last_written p (if ptr_eqb q p then d' else d) r
  | _ :: r => last_written p d r
  end.
End Spec.
Arguments cmd : clear implicits.
