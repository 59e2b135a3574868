(** Specification of RotatingHashMap: one finite map whose entries carry an age,
    the number of rotations since the entry was last inserted or accessed. *)
From Coq Require Import List Arith NArith Permutation Bool.
From Verif Require Import Common HashMap_Spec.
Import ListNotations.

Section Spec.
Context {K V : Type}.
Variable keq : K -> K -> bool.
Variable vdef : V.

Inductive rop :=
| RIndex (k : K)                    (* read m[k] *)
| RAssign (k : K) (v : V)           (* m[k] = v *)
| RLookup (k : K)                   (* lookup(k) *)
| RExists (k : K)                   (* exists(k), counts as access *)
| RExistsNoPromote (k : K)
| RRemove (k : K) (must : bool)
| RRotate                           (* rotate() *)
| RRotateFn                         (* rotate(fn): fn is called on ... *)
| RFlush                            (* flushRotate() *)
| RFlushFn                          (* flushRotate(fn) *)
| RWalk                             (* walk(fn) *)
| RSize | RSizeRecent | RSizeOld | REmpty.

(** key, (value, age) *)
Definition aged := list (K * (V * nat)).

(** Touching a key that is present makes its age 0 (the stored key is then the
    one used for the access). *)
Definition touch (k : K) (e : aged) : aged :=
  match mfind keq k e with
  | Some (v, S _) => (k, (v, 0)) :: mdelete keq k e
  | _ => e
  end.
Definition value_of (k : K) (e : aged) : option V := option_map fst (mfind keq k e).

(** A rotation discards what has not been touched since the previous one and
    makes everything else one older. *)
Definition survives (b : K * (V * nat)) : bool := snd (snd b) =? 0.
Definition rotated (e : aged) : aged :=
  map (fun b => (fst b, (fst (snd b), S (snd (snd b))))) (filter survives e).
Definition discarded (e : aged) : aged := filter (fun b => negb (survives b)) e.
Definition strip (e : aged) : list (K * V) := map (fun b => (fst b, fst (snd b))) e.

Definition rspec (e : aged) (o : rop) : res (aged * mout K V) :=
  match o with
  | RIndex k => match value_of k e with
                | Some v => Ok (touch k e, RVal v)
                | None => Ok ((k, (vdef, 0)) :: e, RVal vdef)
                end
  | RAssign k v => match value_of k e with
                   | Some _ => Ok (mupdate keq k (v, 0) (touch k e), RUnit)
                   | None => Ok ((k, (v, 0)) :: e, RUnit)
                   end
  | RLookup k => Ok (touch k e, ROpt (value_of k e))
  | RExists k => Ok (touch k e, RBool (match value_of k e with Some _ => true | None => false end))
  | RExistsNoPromote k => Ok (e, RBool (match value_of k e with Some _ => true | None => false end))
  | RRemove k must => match value_of k e with
                      | Some _ => Ok (mdelete keq k e, RBool true)
                      | None => if must then Abort else Ok (e, RBool false)
                      end
  | RRotate => Ok (rotated e, RUnit)
  | RRotateFn => Ok (rotated e, RPairs (strip (discarded e)))
  | RFlush => Ok ([], RUnit)
  | RFlushFn => Ok ([], RPairs (strip e))
  | RWalk => Ok (e, RPairs (strip e))
  | RSize => Ok (e, RNum (length e))
  | RSizeRecent => Ok (e, RNum (length (filter survives e)))
  | RSizeOld => Ok (e, RNum (length (discarded e)))
  | REmpty => Ok (e, RBool (length e =? 0))
  end.

Fixpoint rspec_run (e : aged) (ops : list rop) : list (res (mout K V)) :=
  match ops with
  | [] => []
  | o :: r => match rspec e o with
              | Ok (e', out) => Ok out :: rspec_run e' r
              | Abort => [Abort]
              | UB => [UB]
              | Fuel => [Fuel]
              end
  end.

(** The same told for one key, straight from the history of calls: its value
    and the number of rotations since it was last inserted or accessed, None
    when it is not retained. *)
Definition key_step (k : K) (st : option (V * nat)) (o : rop) : option (V * nat) :=
  match o with
  | RAssign k' v => if keq k k' then Some (v, 0) else st
  | RIndex k' => if keq k k' then (match st with Some (v, _) => Some (v, 0) | None => Some (vdef, 0) end) else st
  | RLookup k' | RExists k' =>
      if keq k k' then (match st with Some (v, _) => Some (v, 0) | None => None end) else st
  | RRemove k' _ => if keq k k' then None else st
  | RRotate | RRotateFn => match st with Some (v, 0) => Some (v, 1) | _ => None end
  | RFlush | RFlushFn => None
  | RExistsNoPromote _ | RWalk | RSize | RSizeRecent | RSizeOld | REmpty => st
  end.
Definition key_history (k : K) (ops : list rop) : option (V * nat) := fold_left (key_step k) ops None.
End Spec.
Arguments rop : clear implicits.
