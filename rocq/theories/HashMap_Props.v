(** Property theorem for HashMap (C01). *)
From Coq Require Import List Arith NArith Bool Permutation.
From Verif Require Import Common HashTable_Model HashMap_Spec HashMap_Model HashMap_Proofs.
Import ListNotations.

(** C01. Every client program on a fresh map, shorter than the documented table
    limit, shows exactly the answers of the finite-map specification (listings
    up to order); aborts occur exactly where the specification says. *)
Theorem C01_hashmap_is_finite_map :
  forall (K V : Type) (khash : K -> N) (keq : K -> K -> bool) (kdef : K) (vdef : V) (num den : nat)
         (t : hm K V) (ops : list (mop K V)),
  (forall a, keq a a = true) ->
  (forall a b, keq a b = true -> keq b a = true) ->
  (forall a b c, keq a b = true -> keq b c = true -> keq a c = true) ->
  (forall a b, keq a b = true -> khash a = khash b) ->
  hm_new num den = Ok t ->
  (N.of_nat (length ops) * N.of_nat den < N.of_nat num * 141650939)%N ->
  Forall2 res_agree (hm_run khash keq kdef vdef t ops)
                    (mspec_run keq vdef num den (mk_ms [] true) ops).
Proof. intros; eapply hm_refines; eauto. Qed.
Print Assumptions C01_hashmap_is_finite_map.

(** The hypotheses are met, and the run is non-trivial: growth, replacement,
    removal, slot reuse, a failing must-exist remove. *)
Example C01_hypotheses_met :
  (forall a, Nat.eqb a a = true)
  /\ (forall a b, Nat.eqb a b = true -> Nat.eqb b a = true)
  /\ (forall a b c, Nat.eqb a b = true -> Nat.eqb b c = true -> Nat.eqb a c = true)
  /\ (forall a b, Nat.eqb a b = true -> N.of_nat (a mod 4) = N.of_nat (b mod 4))
  /\ exists t : hm nat nat, hm_new 2 1 = Ok t.
Proof.
  repeat split.
  - exact Nat.eqb_refl.
  - intros a b H; now rewrite Nat.eqb_sym.
  - intros a b c H1 H2; apply Nat.eqb_eq in H1, H2; subst; apply Nat.eqb_refl.
  - intros a b H; apply Nat.eqb_eq in H; now subst.
  - eexists; reflexivity.
Qed.

Definition ex_ops : list (mop nat nat) :=
  map (fun i => MAssign i (i * i)) (seq 0 12)
  ++ [MRemove 4 true; MRemove 8 true; MAssign 20 1; MAssign 5 99; MIndex 5; MIndex 21; MSize;
      MLookup 4; MAddUnless 7; MDGet 100; MExists 20; MRemove 4 false; MCGet 4; MSize].
Example C01_run :
  match hm_new 2 1 with
  | Ok t => skipn 12 (hm_run (fun n => N.of_nat (n mod 4)) Nat.eqb 0 0 t ex_ops)
  | _ => []
  end =
  [Ok (RBool true); Ok (RBool true); Ok RUnit; Ok RUnit; Ok (RVal 99); Ok (RVal 0); Ok (RNum 12);
   Ok (ROpt None); Ok (RBool false); Ok (RVal 0); Ok (RBool true); Ok (RBool false); Abort].
Proof. vm_compute. reflexivity. Qed.
