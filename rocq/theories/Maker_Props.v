(** C51: StatsMaker. *)
From Coq Require Import List Arith ZArith Lia Bool ZifyBool ZifyNat.
From Verif Require Import Common CommonFacts Maker_Model Maker_Spec Maker_Proofs.
Import ListNotations.

(** C51. In every program of setMode* and make calls, every make(name) returns and
    uses the latest setting of the longest name that applies to [name] (the name
    itself, or what is left after taking away a group of dashes and what follows),
    or if none applies the setting of "default", or a plain Stats. *)
Theorem C51_most_specific : forall D (simple : D) prog, exists ks, m_run D simple [] prog = Ok ks /\ makes simple [] prog ks.
Proof. intros D simple prog. apply run_spec. split; [reflexivity|left; reflexivity]. Qed.
Print Assumptions C51_most_specific.

(** The choice is unique. *)
Theorem C51_unique : forall D (simple : D) set n k k', chosen simple set n k -> chosen simple set n k' -> k = k'.
Proof.
  assert (PN : forall n p, applies n p -> firstn (length p) n = p).
  { intros n p [->|(q & c & r & _ & _ & ->)]; [apply firstn_all|]. rewrite firstn_app, firstn_all, Nat.sub_diag. cbn [firstn]. apply app_nil_r. }
  intros D simple set n k k' [(p & H1 & H2 & H3)|(H1 & ->)] [(p' & H1' & H2' & H3')|(H1' & ->)].
  - assert (p = p'); [|congruence]. assert (length p = length p') by (specialize (H3 p' H1' ltac:(congruence)); specialize (H3' p H1 ltac:(congruence)); lia). rewrite <- (PN n p H1), <- (PN n p' H1'). congruence.
  - rewrite (H1' p H1) in H2. discriminate.
  - rewrite (H1 p' H1') in H2'. discriminate.
  - reflexivity.
Qed.
Print Assumptions C51_unique.

(** "a--b-c" uses "a--b" if set, and "a" if set, never "a-"; "z" uses "default". *)
Example C51_ex : m_run Z 0%Z [] [MSet [97] 1; MSet [97; DASH] 2; MMake [97; DASH; DASH; 98; DASH; 99]; MSet [97; DASH; DASH; 98] 3;
    MMake [97; DASH; DASH; 98; DASH; 99]; MMake [122]; MSet DEFAULT 4; MMake [122]]%Z = Ok [1; 3; 0; 4]%Z.
Proof. vm_compute. reflexivity. Qed.
(** The name of the fallback is "default". *)
Example C51_default_name : m_run Z 0%Z [] [MMake [122]; MSet [100; 101; 102; 97; 117; 108; 116] 4; MMake [122]; MSet [100; 101; 102; 97; 117; 108] 5; MMake [122]]%Z = Ok [0; 4; 4]%Z.
Proof. vm_compute. reflexivity. Qed.
