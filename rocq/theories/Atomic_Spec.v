(** What C47 means: sequential meaning of each operation of lintel::Atomic<T>, histories of
    calls and returns, and linearizability of a history (Herlihy and Wing). *)
From Coq Require Import List ZArith Bool.
Import ListNotations.
Local Open Scope Z_scope.

(** The public operations. A value of the integer type T of [w] bits is given by its bit
    pattern, a number in [0, 2^w) (for a signed T the two's complement pattern). *)
Inductive aop : Type :=
| Load | Store (v : Z) | Exchange (v : Z) | CompareExchange (expected desired : Z)
| FetchAdd (v : Z) | FetchSub (v : Z) | FetchOr (v : Z) | FetchAnd (v : Z) | FetchXor (v : Z)
| AddFetch (v : Z) | SubFetch (v : Z) | OrFetch (v : Z) | AndFetch (v : Z) | XorFetch (v : Z)
| PostInc | PostDec | PreInc | PreDec.

(** Results: nothing, a value, or (compare_exchange) success and the new *expected. *)
Inductive ares : Type := RUnit | RVal (v : Z) | RCas (ok : bool) (expected : Z).

Definition word (w : Z) (v : Z) : Z := v mod 2 ^ w.

(** Sequential meaning: new value of the counter and result. *)
Definition seq_op (w : Z) (s : Z) (op : aop) : Z * ares :=
  match op with
  | Load => (s, RVal s)
  | Store v => (v, RUnit)
  | Exchange v => (v, RVal s)
  | CompareExchange e d => if s =? e then (d, RCas true e) else (s, RCas false s)
  | FetchAdd v => (word w (s + v), RVal s)
  | FetchSub v => (word w (s - v), RVal s)
  | FetchOr v => (Z.lor s v, RVal s)
  | FetchAnd v => (Z.land s v, RVal s)
  | FetchXor v => (Z.lxor s v, RVal s)
  | AddFetch v => (word w (s + v), RVal (word w (s + v)))
  | SubFetch v => (word w (s - v), RVal (word w (s - v)))
  | OrFetch v => (Z.lor s v, RVal (Z.lor s v))
  | AndFetch v => (Z.land s v, RVal (Z.land s v))
  | XorFetch v => (Z.lxor s v, RVal (Z.lxor s v))
  | PostInc => (word w (s + 1), RVal s)
  | PostDec => (word w (s - 1), RVal s)
  | PreInc => (word w (s + 1), RVal (word w (s + 1)))
  | PreDec => (word w (s - 1), RVal (word w (s - 1)))
  end.

(** Operands are words. *)
Definition is_word (w v : Z) : Prop := 0 <= v < 2 ^ w.
Definition op_ok (w : Z) (op : aop) : Prop :=
  match op with
  | Store v | Exchange v | FetchAdd v | FetchSub v | FetchOr v | FetchAnd v | FetchXor v
  | AddFetch v | SubFetch v | OrFetch v | AndFetch v | XorFetch v => is_word w v
  | CompareExchange e d => is_word w e /\ is_word w d
  | _ => True
  end.

(** A history: calls and returns in the order they happen; every call has its own number. *)
Inductive event : Type :=
| Call (id : nat) (thread : nat) (op : aop)
| Return (id : nat) (thread : nat) (r : ares).

(** One operation of a sequential execution. *)
Record done_op : Type := mkDone { d_id : nat; d_op : aop; d_res : ares }.

(** [l] is a sequential execution from [s] to [s']. *)
Inductive sequential (w : Z) : Z -> list done_op -> Z -> Prop :=
| sequential_nil : forall s, sequential w s [] s
| sequential_cons : forall s id op l s',
    sequential w (fst (seq_op w s op)) l s' ->
    sequential w s (mkDone id op (snd (seq_op w s op)) :: l) s'.

(** [a] comes before [b] in [l]. *)
Definition before {X} (a b : X) (l : list X) : Prop := exists l1 l2 l3, l = l1 ++ a :: l2 ++ b :: l3.

(** [l] linearizes the history [h], ending in state [s']. *)
Record linearizes (w s : Z) (h : list event) (l : list done_op) (s' : Z) : Prop := {
  lin_sequential : sequential w s l s';
  (* no operation takes effect twice *)
  lin_once : NoDup (map d_id l);
  (* only called operations take effect *)
  lin_called : forall d, In d l -> exists t, In (Call (d_id d) t (d_op d)) h;
  (* every returned operation took effect, with the result it returned *)
  lin_returned : forall id t r, In (Return id t r) h -> exists op, In (Call id t op) h /\ In (mkDone id op r) l;
  (* an operation that returned before another was called comes first *)
  lin_order : forall a b t r t' op', before (Return a t r) (Call b t' op') h ->
    forall d e, In d l -> In e l -> d_id d = a -> d_id e = b -> before d e l
}.

(** Operations that add a constant, and the constant. *)
Definition amount (op : aop) : option Z :=
  match op with
  | FetchAdd v | AddFetch v => Some v
  | FetchSub v | SubFetch v => Some (- v)
  | PostInc | PreInc => Some 1
  | PostDec | PreDec => Some (- 1)
  | Load => Some 0
  | _ => None
  end.
Fixpoint called_ops (h : list event) : list aop :=
  match h with
  | [] => []
  | Call _ _ op :: r => op :: called_ops r
  | Return _ _ _ :: r => called_ops r
  end.
Fixpoint sum_amounts (l : list aop) : Z :=
  match l with [] => 0 | op :: r => (match amount op with Some v => v | None => 0 end) + sum_amounts r end.
