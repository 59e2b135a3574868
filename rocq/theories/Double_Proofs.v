(** Lemmas about the tolerance comparisons, exact and in doubles. *)
From Coq Require Import ZArith Bool Reals Lra Lia Psatz.
From Flocq Require Import Core BinarySingleNaN Plus_error.
From Verif Require Import Common Double64 Arith Double_Model.
Local Open Scope Z_scope.

Lemma lt_fin (a b : double) : is_finite a = true -> is_finite b = true -> Bltb a b = Rlt_bool (B2R a) (B2R b).
Proof. intros. now apply Bltb_correct. Qed.
Lemma eqb_fin (a b : double) : is_finite a = true -> is_finite b = true -> Beqb a b = Req_bool (B2R a) (B2R b).
Proof. intros. now apply Beqb_correct. Qed.
Lemma of_Z_0 : B2R (of_Z 0) = 0%R /\ is_finite (of_Z 0) = true.
Proof. destruct (of_Z_spec 0) as (E & F); [lia|]. rewrite E, rnd_0. auto. Qed.
Lemma z0 : of_Z 0 = B754_zero false.
Proof. reflexivity. Qed.

Notation iabs := (dabs ieee).
Lemma abs_R (a : double) : is_finite a = true -> B2R (iabs a) = Rabs (B2R a) /\ is_finite (iabs a) = true.
Proof.
  intros F. destruct of_Z_0 as (E0 & F0). unfold dabs. change (@nlt ieee a (of_int 0)) with (Bltb a (of_Z 0)). rewrite lt_fin by auto. rewrite E0.
  destruct (Rlt_bool_spec (B2R a) 0).
  - change (@nopp ieee a) with (Bopp a). rewrite B2R_Bopp, is_finite_Bopp. rewrite Rabs_left by assumption. auto.
  - rewrite Rabs_pos_eq by assumption. auto.
Qed.
(** The two orders of subtraction are opposite, unless both numbers are zero. *)
Lemma sub_swap (a b : double) : is_finite a = true -> is_finite b = true -> B2R a <> B2R b ->
  dsub b a = Bopp (dsub a b) /\ B2R (dsub a b) <> 0%R \/ (exists s, dsub a b = B754_infinity s /\ dsub b a = B754_infinity (negb s)).
Proof.
  intros Fa Fb N.
  pose proof (Bminus_correct 53 1024 prec_gt_0_53 prec_lt_emax_53 mode_NE a b Fa Fb) as H1.
  pose proof (Bminus_correct 53 1024 prec_gt_0_53 prec_lt_emax_53 mode_NE b a Fb Fa) as H2.
  assert (RO : round radix2 fexp64 ZnearestE (B2R b - B2R a) = (- round radix2 fexp64 ZnearestE (B2R a - B2R b))%R).
  { rewrite <- round_NE_opp. f_equal. lra. }
  cbn [round_mode] in H1, H2. rewrite RO, Rabs_Ropp in H2. fold (dsub a b) in H1. fold (dsub b a) in H2.
  destruct (Rlt_bool _ _).
  - left. destruct H1 as (R1 & F1 & S1), H2 as (R2 & F2 & S2).
    assert (NZ : B2R (dsub a b) <> 0%R).
    { rewrite R1. apply (round_plus_neq_0 radix2 fexp64 ZnearestE (B2R a) (- B2R b)); [apply generic_format_B2R|apply generic_format_opp, generic_format_B2R|]. lra. }
    split; [|exact NZ].
    apply B2R_Bsign_inj; [exact F2|now rewrite is_finite_Bopp|rewrite B2R_Bopp; lra|].
    rewrite Bsign_Bopp by (destruct (dsub a b); cbn in F1 |- *; congruence). rewrite S1, S2.
    destruct (Rcompare_spec (B2R a - B2R b) 0); destruct (Rcompare_spec (B2R b - B2R a) 0); try lra; reflexivity.
  - right. destruct H1 as (O1 & S1), H2 as (O2 & S2). cbn in O1, O2.
    exists (Bsign a). split; apply B2SF_inj; [exact O1|]. rewrite O2. cbn. f_equal.
    assert (S3 : Bsign b = negb (Bsign a)) by (destruct (Bsign a), (Bsign b); cbn in *; congruence). exact S3.
Qed.
Lemma abs_opp (x : double) : B2R x <> 0%R -> iabs (Bopp x) = iabs x.
Proof. destruct x as [s|s| |[] m e H]; cbn; congruence || reflexivity. Qed.
Lemma abs_inf s : iabs (B754_infinity s) = B754_infinity false.
Proof. destruct s; reflexivity. Qed.
Lemma abs_sub_swap (a b : double) : is_finite a = true -> is_finite b = true -> B2R a <> B2R b -> iabs (dsub a b) = iabs (dsub b a).
Proof.
  intros Fa Fb N. destruct (sub_swap a b Fa Fb N) as [(E & NZ)|(s & E1 & E2)].
  - rewrite E. symmetry. now apply abs_opp.
  - rewrite E1, E2, !abs_inf. reflexivity.
Qed.
Lemma finite_nonzero_eq (a b : double) : is_finite a = true -> is_finite b = true -> B2R a = B2R b -> B2R a <> 0%R -> a = b.
Proof.
  intros Fa Fb E N. destruct a as [|s| |s m e H]; cbn in N, Fa; try congruence; try lra. destruct b as [|s'| |s' m' e' H']; cbn in E, Fb; try congruence.
  apply B2R_inj; [reflexivity|reflexivity|exact E].
Qed.
Lemma fin_nz s m e (H : SpecFloat.bounded 53 1024 m e = true) : B2R (B754_finite s m e H : double) <> 0%R.
Proof. cbn. apply F2R_neq_0. destruct s; discriminate. Qed.
Lemma zero_form (a : double) : is_finite a = true -> B2R a = 0%R -> exists s, a = B754_zero s.
Proof. destruct a as [s| | |s m e H]; try discriminate; intros _ Z; [now exists s|]. exfalso. exact (fin_nz s m e H Z). Qed.
Lemma d_eq_sym_fin (eps a b : double) : is_finite a = true -> is_finite b = true -> d_eq ieee eps a b = d_eq ieee eps b a.
Proof.
  intros Fa Fb. destruct (Req_dec (B2R a) (B2R b)) as [E|N].
  - destruct (Req_dec (B2R a) 0) as [Z|Z]; [|now rewrite (finite_nonzero_eq a b Fa Fb E Z)].
    rewrite Z in E. symmetry in E. destruct (zero_form a Fa Z) as (s & ->), (zero_form b Fb E) as (s' & ->). destruct s, s'; reflexivity.
  - unfold d_eq. change (@nsub ieee) with dsub. rewrite (abs_sub_swap a b Fa Fb N).
    destruct (abs_R a Fa) as (Ra & FA), (abs_R b Fb) as (Rb & FB).
    assert (M : dmin ieee (iabs a) (iabs b) = dmin ieee (iabs b) (iabs a) \/ (Rabs (B2R a) = 0 /\ Rabs (B2R b) = 0)%R).
    { unfold dmin. change (@nlt ieee) with (@Bltb 53 1024). rewrite !lt_fin by auto. rewrite Ra, Rb.
      destruct (Rlt_bool_spec (Rabs (B2R b)) (Rabs (B2R a))); destruct (Rlt_bool_spec (Rabs (B2R a)) (Rabs (B2R b))); try lra; auto.
      destruct (Req_dec (Rabs (B2R a)) 0) as [Z|Z]; [right; lra|]. left. apply finite_nonzero_eq; auto; rewrite ?Ra, ?Rb; lra. }
    destruct M as [M|(Z1 & Z2)]; [now rewrite M|]. exfalso. apply N. revert Z1 Z2. unfold Rabs. destruct (Rcase_abs (B2R a)), (Rcase_abs (B2R b)); lra.
Qed.
Lemma d_eq_sym_ieee (eps a b : double) : d_eq ieee eps a b = d_eq ieee eps b a.
Proof.
  destruct (is_finite a) eqn:Fa; [destruct (is_finite b) eqn:Fb|]; [now apply d_eq_sym_fin| |].
  - destruct b as [|s| |]; try discriminate; destruct a as [sa|sa| |sa m e H]; try discriminate; try destruct sa; try destruct s; reflexivity.
  - destruct a as [|s| |]; try discriminate; destruct b as [sa|sa| |sa m e H]; try destruct sa; try destruct s; reflexivity.
Qed.
(** a number equals itself, if the tolerance is positive *)
Lemma d_eq_refl_fin (eps a b : double) : is_finite a = true -> is_finite b = true -> B2R a = B2R b -> Bltb (of_Z 0) eps = true -> d_eq ieee eps a b = true.
Proof.
  intros Fa Fb E He. destruct of_Z_0 as (E0 & F0).
  assert (D : exists s, dsub a b = B754_zero s).
  { pose proof (Bminus_correct 53 1024 prec_gt_0_53 prec_lt_emax_53 mode_NE a b Fa Fb) as H. fold (dsub a b) in H. replace (B2R a - B2R b)%R with 0%R in H by lra.
    rewrite round_0 in H by apply valid_rnd_N. rewrite Rabs_R0 in H. rewrite Rlt_bool_true in H by apply bpow_gt_0. destruct H as (R & F & _).
    now apply zero_form. }
  destruct D as (s & D). unfold d_eq. change (@nsub ieee) with dsub. rewrite D.
  assert (AZ : iabs (B754_zero s) = B754_zero s) by (destruct s; reflexivity). rewrite AZ.
  destruct (neq _ _) eqn:Q; change (@nlt ieee) with (@Bltb 53 1024).
  - rewrite z0 in He. destruct s; destruct eps as [|[]| |[]]; try discriminate; reflexivity.
  - set (r := dmin ieee (iabs a) (iabs b)) in *. assert (FR : is_finite r = true /\ B2R r <> 0%R).
    { assert (FR : is_finite r = true). { unfold r, dmin. destruct (nlt _ _); [apply (abs_R b Fb)|apply (abs_R a Fa)]. }
      split; [exact FR|]. change (Beqb r (of_Z 0) = false) in Q. rewrite eqb_fin in Q by auto. rewrite E0 in Q. intros C. rewrite C, Req_bool_true in Q by reflexivity. discriminate. }
    destruct FR as (FR & NR). change (@ndiv ieee (B754_zero s) r) with (ddiv (B754_zero s) r).
    assert (DZ : exists s', ddiv (B754_zero s) r = B754_zero s').
    { destruct r as [|s'| |s' m e H]; try discriminate; try (cbn in NR; lra). cbn. now eexists. }
    destruct DZ as (s' & ->). rewrite z0 in He. destruct s'; destruct eps as [|[]| |[]]; try discriminate; reflexivity.
Qed.
Lemma order_fin (a b : double) : is_finite a = true -> is_finite b = true ->
  (Bltb a b = true /\ Bltb b a = false /\ Bleb a b = true) \/ (Bltb a b = false /\ Bltb b a = true /\ Bleb a b = false) \/
  (Bltb a b = false /\ Bltb b a = false /\ Bleb a b = true /\ B2R a = B2R b).
Proof.
  intros Fa Fb. rewrite !lt_fin by auto. rewrite Bleb_correct by auto.
  destruct (Rlt_bool_spec (B2R a) (B2R b)); destruct (Rlt_bool_spec (B2R b) (B2R a)); destruct (Rle_bool_spec (B2R a) (B2R b)); try (exfalso; lra); auto; right; right; repeat split; lra.
Qed.
