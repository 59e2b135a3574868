(** Stats over IEEE doubles. *)
From Coq Require Import List ZArith Lia Reals Lra.
From Flocq Require Import Core BinarySingleNaN.
From Verif Require Import Common Double64 Arith Stats_Spec Stats_DSpec Stats_Model Stats_Proofs.
Import ListNotations.

Lemma finite_lt : forall x y : double, is_finite x = true -> is_finite y = true -> Bltb x y = Rlt_bool (B2R x) (B2R y).
Proof. intros. now apply Bltb_correct. Qed.
Lemma finite_lt_pinf : forall x : double, is_finite x = true -> Bltb x (B754_infinity false) = true.
Proof. intros [s|s| |s m e H] F; try discriminate F; destruct s; reflexivity. Qed.
Lemma pinf_lt_finite : forall x : double, is_finite x = true -> Bltb (B754_infinity false) x = false.
Proof. intros [s|s| |s m e H] F; try discriminate F; destruct s; reflexivity. Qed.
Lemma ninf_lt_finite : forall x : double, is_finite x = true -> Bltb (B754_infinity true) x = true.
Proof. intros [s|s| |s m e H] F; try discriminate F; destruct s; reflexivity. Qed.
Lemma finite_lt_ninf : forall x : double, is_finite x = true -> Bltb x (B754_infinity true) = false.
Proof. intros [s|s| |s m e H] F; try discriminate F; destruct s; reflexivity. Qed.

Lemma dmin_app : forall m n l k, all_finite l -> all_finite k -> dmin_of m l -> dmin_of n k -> dmin_of (if Bltb n m then n else m) (l ++ k).
Proof.
  intros m n l k Fl Fk [[-> ->]|[I L]] [[-> ->]|[J K]]; cbn [app]; unfold all_finite in *; rewrite Forall_forall in Fl, Fk.
  - left. now split.
  - rewrite finite_lt_pinf by auto. now right.
  - rewrite pinf_lt_finite by auto. rewrite app_nil_r. now right.
  - right. rewrite finite_lt by auto. destruct (Rlt_bool_spec (B2R n) (B2R m)) as [E|E].
    + split; [apply in_or_app; now right|]. apply Forall_app. split; [|exact K]. eapply Forall_impl; [|exact L]. cbn. intros. lra.
    + split; [apply in_or_app; now left|]. apply Forall_app. split; [exact L|]. eapply Forall_impl; [|exact K]. cbn. intros. lra.
Qed.
Lemma dmax_app : forall m n l k, all_finite l -> all_finite k -> dmax_of m l -> dmax_of n k -> dmax_of (if Bltb m n then n else m) (l ++ k).
Proof.
  intros m n l k Fl Fk [[-> ->]|[I L]] [[-> ->]|[J K]]; cbn [app]; unfold all_finite in *; rewrite Forall_forall in Fl, Fk.
  - left. now split.
  - rewrite ninf_lt_finite by auto. now right.
  - rewrite finite_lt_ninf by auto. rewrite app_nil_r. now right.
  - right. rewrite finite_lt by auto. destruct (Rlt_bool_spec (B2R m) (B2R n)) as [E|E].
    + split; [apply in_or_app; now right|]. apply Forall_app. split; [|exact K]. eapply Forall_impl; [|exact L]. cbn. intros. lra.
    + split; [apply in_or_app; now left|]. apply Forall_app. split; [exact L|]. eapply Forall_impl; [|exact K]. cbn. intros. lra.
Qed.

Definition RepD (s : stats ieee) (l : list double) : Prop :=
  number s = (Z.of_nat (length l) mod 2 ^ 64)%Z /\ (all_finite l -> dmin_of (min_value s) l /\ dmax_of (max_value s) l).
Lemma drun_rep : forall ops i, RepD (st_run ieee (fun x : double => x) ops i) (samples ops i).
Proof.
  apply (run_ind ieee (fun x : double => x) RepD).
  - split; [reflexivity|]. intros _. split; left; now split.
  - intros s l x [R1 R2]. split.
    + cbn [st_add number]. rewrite R1, app_length. cbn [length]. rewrite Z.add_mod_idemp_l by discriminate. f_equal. lia.
    + cbn [st_add min_value max_value nlt ieee]. intros F. apply Forall_app in F as [Fl Fx]. destruct (R2 Fl) as [Mi Ma].
      inversion_clear Fx as [|? ? Fx' _]. split.
      * apply dmin_app; auto; [constructor; auto|]. right. split; [now left|]. constructor; [lra|constructor].
      * apply dmax_app; auto; [constructor; auto|]. right. split; [now left|]. constructor; [lra|constructor].
  - intros s l t k [R1 R2] [S1 S2]. split.
    + cbn [st_merge number]. rewrite R1, S1, app_length, <- Z.add_mod by discriminate. f_equal. lia.
    + intros F. apply Forall_app in F as [Fl Fk]. destruct (R2 Fl), (S2 Fk). cbn [st_merge min_value max_value nlt ieee]. split.
      * now apply dmin_app.
      * now apply dmax_app.
Qed.

(** Integer samples: as long as the sum of squares fits in 53 bits nothing is rounded. *)
Lemma zsum_app : forall l m, zsum (l ++ m) = (zsum l + zsum m)%Z.
Proof. induction l as [|a l IH]; intros m; cbn; [reflexivity|]. fold (zsum (l ++ m)) (zsum l). rewrite IH. lia. Qed.
Lemma zsumsq_app : forall l m, zsumsq (l ++ m) = (zsumsq l + zsumsq m)%Z.
Proof. intros. unfold zsumsq. rewrite map_app. apply zsum_app. Qed.
Lemma zsumsq_nonneg : forall l, (0 <= zsumsq l)%Z.
Proof. induction l as [|a l IH]; unfold zsumsq in *; cbn; [lia|]. fold (zsum (map (fun x => x * x)%Z l)). nia. Qed.
Lemma zsum_le : forall l, (Z.abs (zsum l) <= zsumsq l)%Z.
Proof.
  induction l as [|a l IH]; unfold zsumsq in *; cbn; [lia|]. fold (zsum l) (zsum (map (fun x => x * x)%Z l)).
  assert (Z.abs a <= a * a)%Z by nia. lia.
Qed.
Lemma is_int_abs : forall z, (Z.abs z <= 2 ^ 53)%Z -> (Rabs (IZR z) <= bpow radix2 53)%R.
Proof. intros z H. rewrite <- abs_IZR. change (bpow radix2 53) with (IZR (2 ^ 53)). now apply IZR_le. Qed.
Lemma is_int_of_Z : forall z, (Z.abs z <= 2 ^ 53)%Z -> is_int (of_Z z) z.
Proof. intros z H. destruct (of_Z_spec z) as [E F]; [lia|]. split; [exact F|]. rewrite E. now apply rnd_Z. Qed.
Lemma is_int_add : forall x y a b, is_int x a -> is_int y b -> (Z.abs (a + b) <= 2 ^ 53)%Z -> is_int (dadd x y) (a + b).
Proof.
  intros x y a b [Fx Ex] [Fy Ey] H. destruct (dadd_spec x y 53 Fx Fy) as [E F]; [lia| |].
  - rewrite Ex, Ey, <- plus_IZR. now apply is_int_abs.
  - split; [exact F|]. rewrite E, Ex, Ey, <- plus_IZR. now apply rnd_Z.
Qed.
Lemma is_int_mul : forall x y a b, is_int x a -> is_int y b -> (Z.abs (a * b) <= 2 ^ 53)%Z -> is_int (dmul x y) (a * b).
Proof.
  intros x y a b [Fx Ex] [Fy Ey] H. destruct (dmul_spec x y 53 Fx Fy) as [E F]; [lia| |].
  - rewrite Ex, Ey, <- mult_IZR. now apply is_int_abs.
  - split; [exact F|]. rewrite E, Ex, Ey, <- mult_IZR. now apply rnd_Z.
Qed.
Definition RepI (s : stats ieee) (l : list Z) : Prop :=
  (zsumsq l <= 2 ^ 53)%Z -> is_int (sum s) (zsum l) /\ is_int (sumsq s) (zsumsq l).
Lemma irun_rep : forall ops i, RepI (st_run ieee of_Z ops i) (samples ops i).
Proof.
  apply (run_ind ieee of_Z RepI).
  - intros _. split; apply is_int_of_Z; vm_compute; discriminate.
  - intros s l x R H. rewrite zsumsq_app in H. unfold zsumsq at 2 in H. cbn in H.
    pose proof (zsumsq_nonneg l) as P. pose proof (zsum_le l) as A.
    assert (X : (Z.abs x <= x * x)%Z) by nia. destruct R as [R1 R2]; [lia|].
    cbn [st_add sum sumsq nadd nmul ieee]. rewrite zsum_app, zsumsq_app. unfold zsumsq at 2. cbn [map zsum fold_right]. rewrite !Z.add_0_r. split.
    + apply is_int_add; [exact R1|apply is_int_of_Z; lia|lia].
    + apply is_int_add; [exact R2| |lia]. apply is_int_mul; [apply is_int_of_Z; lia|apply is_int_of_Z; lia|lia].
  - intros s l t k R S H. rewrite zsumsq_app in H. pose proof (zsumsq_nonneg l). pose proof (zsumsq_nonneg k).
    pose proof (zsum_le l). pose proof (zsum_le k). destruct R as [R1 R2]; [lia|]. destruct S as [S1 S2]; [lia|].
    cbn [st_merge sum sumsq nadd ieee]. rewrite zsum_app, zsumsq_app. split; apply is_int_add; auto; lia.
Qed.
