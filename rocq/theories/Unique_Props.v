(** C66: HashUnique. *)
From Coq Require Import List Arith NArith Lia Bool Permutation.
From Verif Require Import Common HashTable_Model Unique_Spec Unique_Model Unique_Proofs.
Import ListNotations.

(** C66. Every client program on a fresh HashUnique, shorter than the limit of
    the hash table, shows exactly the answers of a finite set; it aborts exactly
    where the specification says. *)
Theorem C66_hashunique_is_set : forall (K : Type) (khash : K -> N) (keq : K -> K -> bool) (kdef : K) (ops : list (uop K)),
  (forall a, keq a a = true) ->
  (forall a b, keq a b = true -> keq b a = true) ->
  (forall a b c, keq a b = true -> keq b c = true -> keq a c = true) ->
  (forall a b, keq a b = true -> khash a = khash b) ->
  (N.of_nat (length ops) < 283301878)%N ->
  exists t, hu_new = Ok t /\ Forall2 uagree (hu_run khash keq kdef t ops) (uspec_run keq (mk_us [] true) ops).
Proof.
  intros K khash keq kdef ops R S T H L. destruct (hu_new_rel khash keq kdef R S T H) as (t & E & HR). exists t. split; [exact E|].
  eapply hu_run_rel; eauto.
Qed.
Print Assumptions C66_hashunique_is_set.

Example C66_run : match hu_new with
  | Ok t => hu_run (fun n => N.of_nat (n mod 4)) Nat.eqb 0 t
     [UReserve 3; UAdd 7; UAdd 11; UAdd 7; UExists 11; UAddOrReplace 11; UAddOrReplace 2; USize; URemove 7 true; UExists 7; URemove 7 false; USize; UWalk; URemove 7 true; USize]
  | _ => []
  end = [Ok UUnit; Ok (UBool true); Ok (UBool true); Ok (UBool false); Ok (UBool true); Ok (UBool true); Ok (UBool false); Ok (UNum 3); Ok UUnit;
         Ok (UBool false); Ok UUnit; Ok (UNum 2); Ok (UKeys [2; 11]); Abort].
Proof. vm_compute. reflexivity. Qed.
