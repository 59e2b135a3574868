(** Specification of Deque: a plain list together with its capacity. *)
From Coq Require Import List Arith NArith ZArith Bool.
From Verif Require Import Common.
Import ListNotations.

Section Spec.
Context {T : Type}.

Inductive dop :=
| DPush (v : T)
| DPushAll (vs : list T)          (* push_back(vector) *)
| DPopFront | DFront | DBack
| DAt (pos : nat)
| DSetAt (pos : nat) (v : T)      (* at(pos) = v *)
| DSize | DEmpty | DCapacity
| DReserve (n : nat)
| DClear
| DToList.                        (* for(i = begin(); i != end(); ++i) collect( *i ) *)

Inductive dout :=
| ODUnit | ODElem (v : T) | ODNum (n : nat) | ODBool (b : bool) | ODList (l : list T).

Record dstate := mk_ds { ds_list : list T; ds_cap : nat }.

(** Memory for [n] objects can be had iff n < 2^60; otherwise the allocator
    throws, shown as [Abort]. *)
Definition memory_for (n : nat) : res unit := if N.ltb (N.of_nat n) (2 ^ 60) then Ok tt else Abort.

Definition push1 (s : dstate) (v : T) : res dstate :=
  if length (ds_list s) =? ds_cap s
  then let! _ := memory_for (2 * (ds_cap s + 1)) in Ok (mk_ds (ds_list s ++ [v]) (2 * ds_cap s + 1))
  else Ok (mk_ds (ds_list s ++ [v]) (ds_cap s)).
Fixpoint push_many (s : dstate) (vs : list T) : res dstate :=
  match vs with [] => Ok s | v :: r => let! s' := push1 s v in push_many s' r end.

(** [UB] marks calls whose precondition does not hold. *)
Definition dspec (s : dstate) (o : dop) : res (dstate * dout) :=
  match o with
  | DPush v => let! s' := push1 s v in Ok (s', ODUnit)
  | DPushAll vs => let! s' := push_many s vs in Ok (s', ODUnit)
  | DPopFront => match ds_list s with [] => UB | _ :: r => Ok (mk_ds r (ds_cap s), ODUnit) end
  | DFront => match ds_list s with [] => UB | x :: _ => Ok (s, ODElem x) end
  | DBack => match ds_list s with [] => UB | x :: r => Ok (s, ODElem (last r x)) end
  | DAt pos => match nth_error (ds_list s) pos with None => UB | Some x => Ok (s, ODElem x) end
  | DSetAt pos v => if pos <? length (ds_list s) then Ok (mk_ds (upd (ds_list s) pos v) (ds_cap s), ODUnit) else UB
  | DSize => Ok (s, ODNum (length (ds_list s)))
  | DEmpty => Ok (s, ODBool (length (ds_list s) =? 0))
  | DCapacity => Ok (s, ODNum (ds_cap s))
  | DReserve n => if length (ds_list s) =? 0
                  then (if 0 <? n then let! _ := memory_for (n + 1) in Ok (mk_ds [] n, ODUnit) else Abort)
                  else Abort
  | DClear => Ok (mk_ds [] (ds_cap s), ODUnit)
  | DToList => Ok (s, ODList (ds_list s))
  end.
End Spec.
Arguments dop : clear implicits.
Arguments dout : clear implicits.
Arguments dstate : clear implicits.
