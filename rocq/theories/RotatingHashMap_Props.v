(** Property theorems for RotatingHashMap (C07). *)
From Coq Require Import List Arith NArith Bool Permutation.
From Verif Require Import Common HashTable_Model HashMap_Spec HashMap_Model RotatingHashMap_Spec RotatingHashMap_Model RotatingHashMap_Proofs.
Import ListNotations.

(** C07. Every client program shows the answers of the aged finite map:
    rotation discards (and reports) exactly what was not touched since the
    previous rotation. *)
Theorem C07_rotating_map_ages :
  forall (K V : Type) (khash : K -> N) (keq : K -> K -> bool) (kdef : K) (vdef : V) (ops : list (rop K V)),
  (forall a, keq a a = true) ->
  (forall a b, keq a b = true -> keq b a = true) ->
  (forall a b c, keq a b = true -> keq b c = true -> keq a c = true) ->
  (forall a b, keq a b = true -> khash a = khash b) ->
  (N.of_nat (length ops) * 1 < 2 * 141650939)%N ->
  exists t, rhm_new = Ok t /\
  Forall2 res_agree (rhm_run khash keq kdef vdef t ops) (rspec_run keq vdef [] ops).
Proof. intros; eapply rhm_refines; eauto. Qed.
Print Assumptions C07_rotating_map_ages.

(** C07, read off the history: when no earlier call aborted, a lookup finds the
    key iff the history of calls retains it, with the latest assigned value. *)
Theorem C07_lookup_from_history :
  forall (K V : Type) (khash : K -> N) (keq : K -> K -> bool) (kdef : K) (vdef : V)
         (ops : list (rop K V)) (k : K) (t : rhm K V),
  (forall a, keq a a = true) ->
  (forall a b, keq a b = true -> keq b a = true) ->
  (forall a b c, keq a b = true -> keq b c = true -> keq a c = true) ->
  (forall a b, keq a b = true -> khash a = khash b) ->
  (N.of_nat (S (length ops)) * 1 < 2 * 141650939)%N ->
  rhm_new = Ok t ->
  let outs := rhm_run khash keq kdef vdef t (ops ++ [RLookup k]) in
  length outs = S (length ops) ->
  nth_error outs (length ops) = Some (Ok (ROpt (option_map fst (key_history keq vdef k ops)))).
Proof. intros; eapply rhm_history; eauto. Qed.
Print Assumptions C07_lookup_from_history.

Definition ex_rops : list (rop nat nat) :=
  [RAssign 1 10; RAssign 2 20; RRotate; RLookup 1; RAssign 3 30; RSizeRecent; RSizeOld;
   RRotateFn; RExistsNoPromote 1; RExistsNoPromote 2; RExists 3; RRotateFn; RLookup 1; RLookup 3; RRemove 3 true; RFlushFn; RSize; REmpty].
Example C07_run :
  match rhm_new with Ok t => skipn 3 (rhm_run N.of_nat Nat.eqb 0 0 t ex_rops) | _ => [] end =
  [Ok (ROpt (Some 10)); Ok RUnit; Ok (RNum 2); Ok (RNum 1); Ok (RPairs [(2, 20)]); Ok (RBool true); Ok (RBool false);
   Ok (RBool true); Ok (RPairs [(1, 10)]); Ok (ROpt None); Ok (ROpt (Some 30)); Ok (RBool true); Ok (RPairs []); Ok (RNum 0); Ok (RBool true)].
Proof. vm_compute. reflexivity. Qed.
Example C07_history_met :
  match rhm_new with Ok t => length (rhm_run N.of_nat Nat.eqb 0 0 t (ex_rops ++ [RLookup 3])) | _ => 0 end = S (length ex_rops)
  /\ key_history Nat.eqb 0 3 (firstn 14 ex_rops) = Some (30, 0) /\ key_history Nat.eqb 0 1 (firstn 12 ex_rops) = None.
Proof. vm_compute. auto. Qed.
