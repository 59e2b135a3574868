(** PI to more digits than a double holds, from the series in the standard library. *)
From Coq Require Import Reals Machin Ratan QArith Qreals Lra Lia.
Local Open Scope R_scope.

Fixpoint qpow (x : Q) (n : nat) : Q := match n with O => 1%Q | S n => Qmult x (qpow x n) end.
Lemma qpow_R x n : Q2R (qpow x n) = Q2R x ^ n.
Proof. induction n as [|n IH]; cbn [qpow pow]; [unfold Q2R; cbn; lra|]. now rewrite Q2R_mult, IH. Qed.
Definition odd_pos (n : nat) : positive := Pos.of_nat (2 * n + 1).
Definition qatan (x : Q) (n : nat) : Q := Qmult (qpow x (2 * n + 1)) (1 # odd_pos n).
Lemma qatan_R x n : Q2R (qatan x n) = Ratan_seq (Q2R x) n.
Proof.
  unfold qatan, Ratan_seq. rewrite Q2R_mult, qpow_R. unfold Rdiv. f_equal. unfold Q2R, odd_pos. cbn [Qnum Qden]. rewrite Rmult_1_l. f_equal.
  rewrite INR_IZR_INZ. f_equal. lia.
Qed.
Definition qterm (n : nat) : Q := Qmult (qpow (-1) n) (Qplus (Qmult 2 (qatan (1 # 3) n)) (qatan (1 # 7) n)).
Lemma qterm_R n : Q2R (qterm n) = tg_alt PI_2_3_7_tg n.
Proof.
  unfold qterm, tg_alt, PI_2_3_7_tg. rewrite Q2R_mult, qpow_R, Q2R_plus, Q2R_mult, !qatan_R. replace (Q2R (1 # 3)) with (/ 3) by (unfold Q2R; cbn; lra). replace (Q2R (1 # 7)) with (/ 7) by (unfold Q2R; cbn; lra).
  replace (Q2R (-1)) with (-1) by (unfold Q2R; cbn; lra). replace (Q2R 2) with 2 by (unfold Q2R; cbn; lra). reflexivity.
Qed.
Fixpoint qsum (n : nat) : Q := match n with O => qterm 0 | S k => Qred (Qplus (qsum k) (qterm (S k))) end.
Lemma qsum_R n : Q2R (qsum n) = sum_f_R0 (tg_alt PI_2_3_7_tg) n.
Proof. induction n as [|n IH]; cbn [qsum sum_f_R0]; [apply qterm_R|]. rewrite (Qeq_eqR _ _ (Qred_correct _)), Q2R_plus, IH, qterm_R. reflexivity. Qed.
Lemma PI_between : Q2R (31415926535897932384 # 10000000000000000000) <= PI <= Q2R (31415926535897932385 # 10000000000000000000).
Proof.
  destruct (PI_2_3_7_ineq 20) as [L U]. rewrite <- !qsum_R in L, U.
  assert (A : (31415926535897932384 # 10000000000000000000 <= 4 * qsum (S (2 * 20)))%Q) by (apply Qle_bool_iff; vm_compute; reflexivity).
  assert (B : (4 * qsum (2 * 20) <= 31415926535897932385 # 10000000000000000000)%Q) by (apply Qle_bool_iff; vm_compute; reflexivity).
  apply Qle_Rle in A. apply Qle_Rle in B. rewrite Q2R_mult in A, B. replace (Q2R 4) with 4 in A, B by (unfold Q2R; cbn; lra). lra.
Qed.
