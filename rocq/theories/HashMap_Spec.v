(** Specification of HashMap: a finite map, as an association list with at most
    one binding per key. Independent of the implementation model. *)
From Coq Require Import List Arith NArith Permutation Bool.
From Verif Require Import Common.
Import ListNotations.

Section Spec.
Context {K V : Type}.
Variable keq : K -> K -> bool.      (* KEqual *)
Variable vdef : V.                  (* V() *)
Variables num den : nat.            (* target chain length = num/den *)

Inductive mop :=
| MIndex (k : K)                    (* read m[k] *)
| MAssign (k : K) (v : V)           (* m[k] = v *)
| MLookup (k : K)                   (* m.lookup(k) *)
| MLookupSet (k : K) (v : V)        (* if (V *p = m.lookup(k)) *p = v *)
| MExists (k : K)
| MCGet (k : K)
| MDGet (k : K)
| MAddUnless (k : K)                (* addUnlessExist(k) *)
| MRemove (k : K) (must : bool)
| MClear
| MReserve (n : N)
| MSize
| MEmpty
| MKeys
| MIterate                          (* for(i = begin(); i != end(); ++i) *)
| MFindErase (k : K)                (* i = find(k); if (i != end()) erase(i) *)
| MEraseIf (p : K -> V -> bool)     (* erase-while-iterating loop *)
| MPrune (p : K -> bool).           (* remove-while-iterating loop with partialReset *)

Inductive mout :=
| RUnit
| RVal (v : V)
| ROpt (o : option V)
| RBool (b : bool)
| RNum (n : nat)
| RKeys (l : list K)
| RPairs (l : list (K * V)).

(** The map: bindings in no particular order; [virgin] is true until the first
    insertion after construction or clear (reserve is only allowed then). *)
Record mstate := mk_ms { ms_map : list (K * V); ms_virgin : bool }.

Definition mfind (k : K) (m : list (K * V)) : option V :=
  option_map snd (find (fun b => keq k (fst b)) m).
Definition minsert (k : K) (v : V) (m : list (K * V)) : list (K * V) := (k, v) :: m.
Definition mupdate (k : K) (v : V) (m : list (K * V)) : list (K * V) :=
  map (fun b => if keq k (fst b) then (fst b, v) else b) m.
Definition mdelete (k : K) (m : list (K * V)) : list (K * V) :=
  filter (fun b => negb (keq k (fst b))) m.

Definition largest : N := 141650939.

Definition mspec (s : mstate) (o : mop) : res (mstate * mout) :=
  let m := ms_map s in
  match o with
  | MIndex k => match mfind k m with
                | Some v => Ok (s, RVal v)
                | None => Ok (mk_ms (minsert k vdef m) false, RVal vdef)
                end
  | MAssign k v => match mfind k m with
                   | Some _ => Ok (mk_ms (mupdate k v m) (ms_virgin s), RUnit)
                   | None => Ok (mk_ms (minsert k v m) false, RUnit)
                   end
  | MLookup k => Ok (s, ROpt (mfind k m))
  | MLookupSet k v => match mfind k m with
                      | Some _ => Ok (mk_ms (mupdate k v m) (ms_virgin s), RBool true)
                      | None => Ok (s, RBool false)
                      end
  | MExists k => Ok (s, RBool (match mfind k m with Some _ => true | None => false end))
  | MCGet k => match mfind k m with Some v => Ok (s, RVal v) | None => Abort end
  | MDGet k => Ok (s, RVal (match mfind k m with Some v => v | None => vdef end))
  | MAddUnless k => match mfind k m with
                    | Some _ => Ok (s, RBool false)
                    | None => Ok (mk_ms (minsert k vdef m) false, RBool true)
                    end
  | MRemove k must => match mfind k m with
                      | Some _ => Ok (mk_ms (mdelete k m) (ms_virgin s), RBool true)
                      | None => if must then Abort else Ok (s, RBool false)
                      end
  | MClear => Ok (mk_ms [] true, RUnit)
  | MReserve n => if ms_virgin s && N.leb (n * N.of_nat den / N.of_nat num) largest
                  then Ok (s, RUnit) else Abort
  | MSize => Ok (s, RNum (length m))
  | MEmpty => Ok (s, RBool (length m =? 0))
  | MKeys => Ok (s, RKeys (map fst m))
  | MIterate => Ok (s, RPairs m)
  | MFindErase k => match mfind k m with
                    | Some _ => Ok (mk_ms (mdelete k m) (ms_virgin s), RBool true)
                    | None => Ok (s, RBool false)
                    end
  | MEraseIf p => Ok (mk_ms (filter (fun b => negb (p (fst b) (snd b))) m) (ms_virgin s), RPairs m)
  | MPrune p => Ok (mk_ms (filter (fun b => negb (p (fst b))) m) (ms_virgin s), RUnit)
  end.

Fixpoint mspec_run (s : mstate) (ops : list mop) : list (res mout) :=
  match ops with
  | [] => []
  | o :: r => match mspec s o with
              | Ok (s', out) => Ok out :: mspec_run s' r
              | Abort => [Abort]
              | UB => [UB]
              | Fuel => [Fuel]
              end
  end.

(** Observations agree: equal, except that listings may come in any order. *)
Definition out_agree (a b : mout) : Prop :=
  match a, b with
  | RKeys l, RKeys l' => Permutation l l'
  | RPairs l, RPairs l' => Permutation l l'
  | _, _ => a = b
  end.
Definition res_agree (a b : res mout) : Prop :=
  match a, b with
  | Ok x, Ok y => out_agree x y
  | Abort, Abort => True
  | _, _ => False
  end.

End Spec.
Arguments mop : clear implicits.
Arguments mout : clear implicits.
Arguments mstate : clear implicits.
