(** Proofs about LeastSquares and Matrix. *)
From Coq Require Import List Arith ZArith QArith Qabs Qminmax Lqa Lia Bool ZifyBool ZifyNat.
From Verif Require Import Common CommonFacts Arith Stats_Spec Stats_Proofs Double_Model Double_Exact Linear_Model Linear_Spec.
Import ListNotations.
Local Open Scope Q_scope.

(** ** LeastSquares *)
Definition wsum (f : Q -> Q -> Q) (l : list qpoint) : Q := qsum (map (fun p => let '(x, y, w) := p in w * f x y) l).
Lemma wsum_cons f x y w l : wsum f ((x, y, w) :: l) = w * f x y + wsum f l.
Proof. reflexivity. Qed.

Definition SR (s : sums exact) (l : list qpoint) : Prop :=
  fin_eq (s_w _ s) (wsum (fun _ _ => 1) l) /\ fin_eq (s_wx _ s) (wsum (fun x _ => x) l) /\ fin_eq (s_wy _ s) (wsum (fun _ y => y) l) /\
  fin_eq (s_wxx _ s) (wsum (fun x _ => x * x) l) /\ fin_eq (s_wxy _ s) (wsum (fun x y => x * y) l).
Lemma wsum_app f l m : wsum f (l ++ m) == wsum f l + wsum f m.
Proof. unfold wsum. rewrite map_app. apply qsum_app. Qed.
Lemma wsum_nil f : wsum f [] = 0.
Proof. reflexivity. Qed.
Lemma wsum_one f x y w : wsum f [(x, y, w)] == w * f x y.
Proof. unfold wsum. cbn [map]. apply qsum_one. Qed.
Lemma loop_ok l : forall l0 s, SR s l0 -> SR (ls_loop exact (map to_point l) s) (l0 ++ l).
Proof.
  induction l as [|[[x y] w] l IH]; intros l0 s H; [now rewrite app_nil_r|]. cbn [map ls_loop]. assert (E : forall p : qpoint, l0 ++ p :: l = (l0 ++ [p]) ++ l) by (intros p; rewrite <- app_assoc; reflexivity). rewrite E. apply IH.
  destruct H as ((a & Ea & Ha) & (b & Eb & Hb) & (c & Ec & Hc) & (d & Ed & Hd) & (e & Ee & He)). destruct s as [s1 s2 s3 s4 s5]. cbn in *. subst. unfold SR. cbn.
  repeat split; eexists; (split; [reflexivity|]); rewrite wsum_app, wsum_one; rewrite ?Ha, ?Hb, ?Hc, ?Hd, ?He; ring.
Qed.

Definition den (l : list qpoint) : Q := wsum (fun _ _ => 1) l * wsum (fun x _ => x * x) l - wsum (fun x _ => x) l * wsum (fun x _ => x) l.
Definition pos (l : list qpoint) : Prop := forall p, In p l -> 0 < snd p.
(** sum of w (x - c)^2 *)
Definition spread (c : Q) (l : list qpoint) : Q := wsum (fun x _ => (x - c) * (x - c)) l.
Lemma wsum_ext f g l : (forall x y, f x y == g x y) -> wsum f l == wsum g l.
Proof. intros H. induction l as [|[[x y] w] l IH]; [reflexivity|]. rewrite !wsum_cons, H, IH. reflexivity. Qed.
Lemma spread_eq c l : spread c l == wsum (fun x _ => x * x) l - 2 * c * wsum (fun x _ => x) l + c * c * wsum (fun _ _ => 1) l.
Proof. unfold spread. induction l as [|[[x y] w] l IH]; [rewrite !wsum_nil; ring|]. rewrite !wsum_cons, IH. ring. Qed.
Lemma pos_cons p l : pos (p :: l) -> 0 < snd p /\ pos l.
Proof. intros H. split; [apply H; now left|intros q Hq; apply H; now right]. Qed.
Lemma spread_nonneg c l : pos l -> 0 <= spread c l.
Proof. intros P. unfold spread. induction l as [|[[x y] w] l IH]; [apply Qle_refl|]. destruct (pos_cons _ _ P) as (W & P'). cbn in W. rewrite wsum_cons. specialize (IH P'). pose proof (qsqr_nonneg (x - c)). assert (0 <= w * ((x - c) * (x - c))) by (apply Qmult_le_0_compat; lra). lra. Qed.
Lemma spread_zero c l : pos l -> spread c l == 0 -> forall p, In p l -> fst (fst p) == c.
Proof.
  intros P. unfold spread. induction l as [|[[x y] w] l IH]; intros Z p Hp; [destruct Hp|]. destruct (pos_cons _ _ P) as (W & P'). cbn in W. rewrite wsum_cons in Z.
  pose proof (qsqr_nonneg (x - c)) as S. assert (S' : 0 <= w * ((x - c) * (x - c))) by (apply Qmult_le_0_compat; lra). pose proof (spread_nonneg c l P') as N. unfold spread in N.
  destruct Hp as [<-|Hp]; [|apply (IH P'); [lra|exact Hp]]. cbn. assert (Z1 : w * ((x - c) * (x - c)) == 0) by lra. apply Qmult_integral in Z1. destruct Z1 as [Z1|Z1]; [lra|]. apply Qmult_integral in Z1. destruct Z1; lra.
Qed.
Lemma spread_const c l : (forall p, In p l -> fst (fst p) == c) -> spread c l == 0.
Proof. unfold spread. induction l as [|[[x y] w] l IH]; intros H; [reflexivity|]. rewrite wsum_cons, IH by (intros; apply H; now right). specialize (H (x, y, w) (or_introl eq_refl)). cbn in H. rewrite H. ring. Qed.
Lemma den_cons x y w l : den ((x, y, w) :: l) == den l + w * spread x l.
Proof. unfold den. rewrite !wsum_cons, spread_eq. ring. Qed.
Lemma den_nonneg l : pos l -> 0 <= den l.
Proof. induction l as [|[[x y] w] l IH]; intros P; [apply Qle_refl|]. destruct (pos_cons _ _ P) as (W & P'). cbn in W. rewrite den_cons. specialize (IH P'). pose proof (spread_nonneg x l P'). assert (0 <= w * spread x l) by (apply Qmult_le_0_compat; lra). lra. Qed.
(** The denominator vanishes only if all x are the same. *)
Lemma den_zero l : pos l -> (den l == 0 <-> forall p q, In p l -> In q l -> fst (fst p) == fst (fst q)).
Proof.
  intros P. split.
  - destruct l as [|[[x y] w] l]; [intros _ p q []|]. intros Z. destruct (pos_cons _ _ P) as (W & P'). cbn in W. rewrite den_cons in Z. pose proof (den_nonneg l P') as N. pose proof (spread_nonneg x l P') as S. assert (S' : 0 <= w * spread x l) by (apply Qmult_le_0_compat; lra).
    assert (Z1 : w * spread x l == 0) by lra. apply Qmult_integral in Z1. destruct Z1 as [Z1|Z1]; [lra|]. pose proof (spread_zero x l P' Z1) as A.
    assert (B : forall p, In p ((x, y, w) :: l) -> fst (fst p) == x) by (intros p [<-|Hp]; [reflexivity|now apply A]). intros p q Hp Hq. now rewrite (B p Hp), (B q Hq).
  - intros H. induction l as [|[[x y] w] l IH]; [reflexivity|]. rewrite den_cons, IH; [|now apply pos_cons in P|intros p q Hp Hq; apply H; now right].
    rewrite spread_const; [ring|]. intros p Hp. exact (H p (x, y, w) (or_intror Hp) (or_introl eq_refl)).
Qed.
Lemma sumw_pos l : pos l -> l <> [] -> 0 < wsum (fun _ _ => 1) l.
Proof.
  intros P N. destruct l as [|[[x y] w] l]; [congruence|]. destruct (pos_cons _ _ P) as (W & P'). cbn in W. rewrite wsum_cons. clear P N.
  assert (0 <= wsum (fun _ _ => 1) l). { induction l as [|[[x' y'] w'] l IH]; [apply Qle_refl|]. destruct (pos_cons _ _ P') as (W' & P''). cbn in W'. rewrite wsum_cons. specialize (IH P''). lra. }
  lra.
Qed.
Lemma error_shift a b da db l : error (a + da) (b + db) l ==
  error a b l + wsum (fun x _ => (da + db * x) * (da + db * x)) l
  - 2 * da * (wsum (fun _ y => y) l - a * wsum (fun _ _ => 1) l - b * wsum (fun x _ => x) l)
  - 2 * db * (wsum (fun x y => x * y) l - a * wsum (fun x _ => x) l - b * wsum (fun x _ => x * x) l).
Proof.
  induction l as [|[[x y] w] l IH]; [rewrite !wsum_nil; unfold error; cbn [map]; rewrite !qsum_nil; ring|]. unfold error in *. cbn [map]. rewrite !qsum_cons, IH, !wsum_cons. ring.
Qed.
Lemma gain_nonneg da db l : pos l -> 0 <= wsum (fun x _ => (da + db * x) * (da + db * x)) l.
Proof. intros P. induction l as [|[[x y] w] l IH]; [apply Qle_refl|]. destruct (pos_cons _ _ P) as (W & P'). cbn in W. rewrite wsum_cons. specialize (IH P'). pose proof (qsqr_nonneg (da + db * x)). assert (0 <= w * ((da + db * x) * (da + db * x))) by (apply Qmult_le_0_compat; lra). lra. Qed.
Lemma gain_zero da db l : pos l -> wsum (fun x _ => (da + db * x) * (da + db * x)) l == 0 -> forall p, In p l -> da + db * fst (fst p) == 0.
Proof.
  intros P. induction l as [|[[x y] w] l IH]; intros Z p Hp; [destruct Hp|]. destruct (pos_cons _ _ P) as (W & P'). cbn in W. rewrite wsum_cons in Z.
  pose proof (qsqr_nonneg (da + db * x)) as S. assert (S' : 0 <= w * ((da + db * x) * (da + db * x))) by (apply Qmult_le_0_compat; lra). pose proof (gain_nonneg da db l P') as N.
  destruct Hp as [<-|Hp]; [|apply (IH P'); [lra|exact Hp]]. cbn. assert (Z1 : w * ((da + db * x) * (da + db * x)) == 0) by lra. apply Qmult_integral in Z1. destruct Z1 as [Z1|Z1]; [lra|]. apply Qmult_integral in Z1. destruct Z1; lra.
Qed.

Lemma fit_ok l : pos l -> (1 < length l)%nat -> ~ den l == 0 ->
  exists a b, fit exact (map to_point l) = Ok (Fin a : exact, Fin b : exact) /\
  a * wsum (fun _ _ => 1) l + b * wsum (fun x _ => x) l == wsum (fun _ y => y) l /\
  a * wsum (fun x _ => x) l + b * wsum (fun x _ => x * x) l == wsum (fun x y => x * y) l.
Proof.
  intros P L D. unfold fit. rewrite map_length. replace (1 <? length l)%nat with true by lia. cbn [invariant bind].
  assert (S0 : SR (mkSums exact (of_int 0) (of_int 0) (of_int 0) (of_int 0) (of_int 0)) []) by (unfold SR; cbn; repeat split; exists 0; split; reflexivity).
  pose proof (loop_ok l [] _ S0) as H. cbn [app] in H. set (s := ls_loop _ _ _) in *. clearbody s. destruct H as ((a & Ea & Ha) & (b & Eb & Hb) & (c & Ec & Hc) & (d & Ed & Hd) & (e & Ee & He)).
  rewrite Ea, Eb, Ec, Ed, Ee. assert (W : 0 < a) by (rewrite Ha; apply sumw_pos; [exact P|destruct l; [cbn in L; lia|discriminate]]).
  unfold den in D. rewrite <- Ha, <- Hb, <- Hd in D.
  cbn [num nadd nsub nmul ndiv neq exact xadd xsub xmul xopp xeq of_int]. replace (Qeq_bool (a * d + - (b * b)) (inject_Z 0)) with false by (symmetry; apply Qeq_bool_false; exact D). cbn [negb invariant bind xdiv].
  replace (Qeq_bool (a * d + - (b * b)) 0) with false by (symmetry; apply Qeq_bool_false; exact D). cbn [xmul xadd xopp]. cbn [xdiv]. replace (Qeq_bool a 0) with false by (symmetry; apply Qeq_bool_false; lra).
  eexists. eexists. split; [reflexivity|]. assert (~ a == 0) by lra. change (~ a * d + - (b * b) == 0) in D. rewrite <- Ha, <- Hb, <- Hc, <- Hd, <- He. clear Ha Hb Hc Hd He. split; field; auto.
Qed.
