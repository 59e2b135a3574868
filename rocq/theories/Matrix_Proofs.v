(** Proofs about Matrix::gaussEliminate in exact arithmetic. *)
From Coq Require Import List Arith ZArith QArith Qabs Qminmax Lqa Lia Bool ZifyBool ZifyNat.
From Verif Require Import Common CommonFacts Arith Stats_Spec Stats_Proofs Double_Model Double_Exact Linear_Model Linear_Spec.
Import ListNotations.
Local Open Scope Q_scope.

Section FX.
Variables nr nc : nat.
Hypothesis Hsize : (Z.of_nat nr * Z.of_nat nc < 2 ^ 32)%Z.

Lemma idx_inj i j i' j' : (j < nc)%nat -> (j' < nc)%nat -> (i * nc + j = i' * nc + j')%nat -> i = i' /\ j = j'.
Proof.
  clear Hsize. intros H1 H2 E. assert (N : nc <> 0%nat) by lia.
  assert (A : ((i * nc + j) / nc = i)%nat) by (rewrite Nat.add_comm, Nat.div_add, Nat.div_small by lia; lia).
  assert (B : ((i' * nc + j') / nc = i')%nat) by (rewrite Nat.add_comm, Nat.div_add, Nat.div_small by lia; lia).
  rewrite E, B in A. subst i'. split; [reflexivity|lia].
Qed.
Lemma idx_eq (m : matrix exact) i j : ncols m = nc -> (i < nr)%nat -> (j < nc)%nat -> idx exact m i j = (i * nc + j)%nat /\ (i * nc + j < nr * nc)%nat.
Proof.
  intros E Hi Hj. assert (B : (i * nc + j < nr * nc)%nat) by nia. split; [|exact B]. unfold idx. rewrite E. rewrite Z.mod_small; [lia|]. nia.
Qed.

(** Setting one entry. *)
Definition fupd (f : nat -> nat -> Q) (r c : nat) (v : Q) : nat -> nat -> Q := fun i j => if ((i =? r) && (j =? c))%nat then v else f i j.
Lemma get_ok m f i j : entries m nr nc f -> (i < nr)%nat -> (j < nc)%nat -> exists q, m_get exact m i j = Ok (Fin q : exact) /\ q == f i j.
Proof. intros (_ & _ & _ & H) Hi Hj. destruct (H i j Hi Hj) as (x & E & q & -> & Eq). exists q. auto. Qed.
Lemma set_ok m f r c v : entries m nr nc f -> (r < nr)%nat -> (c < nc)%nat -> exists m', m_set exact m r c (Fin v : exact) = Ok m' /\ entries m' nr nc (fupd f r c v).
Proof.
  intros (E1 & E2 & E3 & H) Hr Hc. destruct (idx_eq m r c E2 Hr Hc) as (Ei & Li). unfold m_set. rewrite Ei, put_ok by (rewrite E3; exact Li). cbn [bind]. eexists. split; [reflexivity|].
  split; [exact E1|]. split; [exact E2|]. cbn [data]. split; [now rewrite length_upd|]. intros i j Hi Hj. unfold m_get. destruct (idx_eq m i j E2 Hi Hj) as (Ej & Lj). unfold idx in *. cbn [ncols data]. rewrite Ej.
  specialize (H i j Hi Hj). unfold m_get, idx in H. rewrite Ej in H. unfold fupd. destruct ((i =? r) && (j =? c))%nat eqn:Q.
  - assert (i = r /\ j = c) as (-> & ->) by lia. unfold get. rewrite nth_error_upd_eq by (rewrite E3; exact Li). exists (Fin v). split; [reflexivity|]. exists v. split; reflexivity.
  - unfold get in *. rewrite nth_error_upd_neq; [exact H|]. intros C. destruct (idx_inj _ _ _ _ Hc Hj C). lia.
Qed.
Lemma entries_ext m f g : entries m nr nc f -> (forall i j, (i < nr)%nat -> (j < nc)%nat -> f i j == g i j) -> entries m nr nc g.
Proof.
  intros (E1 & E2 & E3 & H) X. split; [exact E1|]. split; [exact E2|]. split; [exact E3|]. intros i j Hi Hj. destruct (H i j Hi Hj) as (x & Ex & q & -> & Eq). exists (Fin q). split; [exact Ex|]. exists q. split; [reflexivity|]. now rewrite Eq, X.
Qed.

Lemma for_inv {S} (body : S -> nat -> res S) (P : nat -> S -> Prop) a n : forall s, P a s ->
  (forall k s, (a <= k < a + n)%nat -> P k s -> exists s', body s k = Ok s' /\ P (Datatypes.S k) s') ->
  exists s', for_cols body (seq a n) s = Ok s' /\ P (a + n)%nat s'.
Proof.
  clear Hsize. revert a. induction n as [|n IH]; intros a s H0 HS; [exists s; rewrite Nat.add_0_r; auto|]. cbn [seq for_cols].
  destruct (HS a s ltac:(lia) H0) as (s1 & E1 & P1). rewrite E1. cbn [bind]. destruct (IH (Datatypes.S a) s1 P1) as (s2 & E2 & P2); [intros k s' Hk; apply HS; lia|].
  exists s2. split; [exact E2|]. replace (a + Datatypes.S n)%nat with (Datatypes.S a + n)%nat by lia. exact P2.
Qed.
(** the same, downwards *)
Lemma for_down {S} (body : S -> nat -> res S) (P : nat -> S -> Prop) a n : forall s, P (a + n)%nat s ->
  (forall k s, (a <= k < a + n)%nat -> P (Datatypes.S k) s -> exists s', body s k = Ok s' /\ P k s') ->
  exists s', for_cols body (rev (seq a n)) s = Ok s' /\ P a s'.
Proof.
  clear Hsize. induction n as [|n IH]; intros s H0 HS; [exists s; rewrite Nat.add_0_r in H0; auto|]. rewrite seq_S, rev_app_distr. cbn [rev app for_cols].
  destruct (HS (a + n)%nat s ltac:(lia)) as (s1 & E1 & P1); [now replace (Datatypes.S (a + n)) with (a + Datatypes.S n)%nat by lia|]. rewrite E1. cbn [bind]. apply IH; [exact P1|]. intros k s' Hk. apply HS. lia.
Qed.

(** ** Row operations *)
Definition fswap (f : nat -> nat -> Q) (a b : nat) : nat -> nat -> Q := fun i j => if (i =? a)%nat then f b j else if (i =? b)%nat then f a j else f i j.
Definition fdiv (f : nat -> nat -> Q) (r : nat) (v : Q) : nat -> nat -> Q := fun i j => if (i =? r)%nat then f i j / v else f i j.
Definition facc (f : nat -> nat -> Q) (a b : nat) (v : Q) : nat -> nat -> Q := fun i j => if (i =? a)%nat then f i j + v * f b j else f i j.

Lemma swapRows_ok m f a b : entries m nr nc f -> (a < nr)%nat -> (b < nr)%nat -> exists m', swapRows exact m a b = Ok m' /\ entries m' nr nc (fswap f a b).
Proof.
  intros E Ha Hb. unfold swapRows. destruct E as (E1 & E2 & E3 & H). rewrite E1, E2. replace ((a <? nr) && (b <? nr))%nat with true by lia. cbn [invariant bind].
  destruct (for_inv (fun m i => let! tmp := m_get exact m a i in let! x := m_get exact m b i in let! m := m_set exact m a i x in m_set exact m b i tmp)
    (fun k m => entries m nr nc (fun i j => if (j <? k)%nat then fswap f a b i j else f i j)) 0 nc m) as (m' & E' & H').
  - split; [exact E1|]. split; [exact E2|]. split; [exact E3|]. exact H.
  - intros k m1 Hk I1. destruct (get_ok m1 _ a k I1 Ha ltac:(lia)) as (x & Ex & Qx), (get_ok m1 _ b k I1 Hb ltac:(lia)) as (y & Ey & Qy).
    rewrite Ex. cbn [bind]. rewrite Ey. cbn [bind]. destruct (set_ok m1 _ a k y I1 Ha ltac:(lia)) as (m2 & E2' & I2). rewrite E2'. cbn [bind].
    destruct (set_ok m2 _ b k x I2 Hb ltac:(lia)) as (m3 & E3' & I3). exists m3. split; [exact E3'|]. eapply entries_ext; [exact I3|]. intros i j Hi Hj. unfold fupd, fswap. rewrite Nat.ltb_irrefl in Qx, Qy.
    destruct (Nat.eq_dec j k) as [->|Nj].
    + rewrite !Nat.eqb_refl, !andb_true_r. replace (k <? S k)%nat with true by lia. destruct (Nat.eqb_spec i b); [subst i; destruct (Nat.eqb_spec b a); [subst b; rewrite Qx; reflexivity|exact Qx]|]. destruct (Nat.eqb_spec i a); [exact Qy|]. now rewrite Nat.ltb_irrefl.
    + replace (j =? k)%nat with false by lia. rewrite !andb_false_r. replace (j <? S k)%nat with (j <? k)%nat by lia. reflexivity.
  - exists m'. split; [exact E'|]. eapply entries_ext; [exact H'|]. intros i j Hi Hj. cbv beta. replace (j <? 0 + nc)%nat with true by lia. reflexivity.
Qed.
Lemma divRow_ok m f r v : entries m nr nc f -> (r < nr)%nat -> ~ v == 0 -> exists m', divRow exact m r (Fin v : exact) = Ok m' /\ entries m' nr nc (fdiv f r v).
Proof.
  intros E Hr Hv. unfold divRow. destruct E as (E1 & E2 & E3 & H). rewrite E1, E2. destruct (xabs_fin v) as (av & -> & Eav).
  assert (Pv : 0 < av). { rewrite Eav. destruct (Qlt_le_dec 0 (Qabs v)) as [P|P]; [exact P|]. exfalso. apply Hv. pose proof (Qabs_nonneg v). pose proof (Qle_Qabs v). pose proof (Qle_Qabs (- v)) as P2. rewrite Qabs_opp in P2. lra. }
  match goal with |- context [invariant ?c] => replace c with true end. 2: { symmetry. apply andb_true_iff. split; [apply Nat.ltb_lt; exact Hr|]. apply xlt_fin. exact Pv. }
  cbn [invariant bind].
  destruct (for_inv (fun m i => let! x := m_get exact m r i in m_set exact m r i (ndiv x (Fin v)))
    (fun k m => entries m nr nc (fun i j => if (j <? k)%nat then fdiv f r v i j else f i j)) 0 nc m) as (m' & E' & H').
  - split; [exact E1|]. split; [exact E2|]. split; [exact E3|]. exact H.
  - intros k m1 Hk I1. destruct (get_ok m1 _ r k I1 Hr ltac:(lia)) as (x & Ex & Qx). rewrite Ex. cbn [bind]. change (@ndiv exact (Fin x) (Fin v)) with (xdiv (Fin x) (Fin v)). cbn [xdiv]. replace (Qeq_bool v 0) with false by (symmetry; now apply Qeq_bool_false).
    destruct (set_ok m1 _ r k (x / v) I1 Hr ltac:(lia)) as (m2 & E2' & I2). exists m2. split; [exact E2'|]. eapply entries_ext; [exact I2|]. intros i j Hi Hj. unfold fupd, fdiv. rewrite Nat.ltb_irrefl in Qx.
    destruct (Nat.eq_dec j k) as [->|Nj].
    + rewrite !Nat.eqb_refl, !andb_true_r. replace (k <? S k)%nat with true by lia. rewrite Nat.ltb_irrefl. destruct (Nat.eqb_spec i r); [subst i; now rewrite Qx|reflexivity].
    + replace (j =? k)%nat with false by lia. rewrite !andb_false_r. replace (j <? S k)%nat with (j <? k)%nat by lia. reflexivity.
  - exists m'. split; [exact E'|]. eapply entries_ext; [exact H'|]. intros i j Hi Hj. cbv beta. replace (j <? 0 + nc)%nat with true by lia. reflexivity.
Qed.
Lemma accum_ok m f a b v : entries m nr nc f -> (a < nr)%nat -> (b < nr)%nat -> exists m', accumMultiply exact m a b (Fin v : exact) = Ok m' /\ entries m' nr nc (facc f a b v).
Proof.
  intros E Ha Hb. unfold accumMultiply. destruct E as (E1 & E2 & E3 & H). rewrite E1, E2. replace ((a <? nr) && (b <? nr))%nat with true by lia. cbn [invariant bind].
  destruct (for_inv (fun m i => let! x := m_get exact m a i in let! y := m_get exact m b i in m_set exact m a i (nadd x (nmul (Fin v : exact) y)))
    (fun k m => entries m nr nc (fun i j => if (j <? k)%nat then facc f a b v i j else f i j)) 0 nc m) as (m' & E' & H').
  - split; [exact E1|]. split; [exact E2|]. split; [exact E3|]. exact H.
  - intros k m1 Hk I1. destruct (get_ok m1 _ a k I1 Ha ltac:(lia)) as (x & Ex & Qx), (get_ok m1 _ b k I1 Hb ltac:(lia)) as (y & Ey & Qy).
    rewrite Ex. cbn [bind]. rewrite Ey. cbn [bind]. change (@nadd exact (Fin x) (@nmul exact (Fin v) (Fin y))) with (Fin (x + v * y)).
    destruct (set_ok m1 _ a k (x + v * y) I1 Ha ltac:(lia)) as (m2 & E2' & I2). exists m2. split; [exact E2'|]. eapply entries_ext; [exact I2|]. intros i j Hi Hj. unfold fupd, facc. rewrite Nat.ltb_irrefl in Qx, Qy.
    destruct (Nat.eq_dec j k) as [->|Nj].
    + rewrite !Nat.eqb_refl, !andb_true_r. replace (k <? S k)%nat with true by lia. rewrite Nat.ltb_irrefl. destruct (Nat.eqb_spec i a); [subst i; now rewrite Qx, Qy|reflexivity].
    + replace (j =? k)%nat with false by lia. rewrite !andb_false_r. replace (j <? S k)%nat with (j <? k)%nat by lia. reflexivity.
  - exists m'. split; [exact E'|]. eapply entries_ext; [exact H'|]. intros i j Hi Hj. cbv beta. replace (j <? 0 + nc)%nat with true by lia. reflexivity.
Qed.

(** ** Row operations do not change the solutions *)
Lemma dot_ext n f g x : (forall j, (j < n)%nat -> f j == g j) -> dot n f x == dot n g x.
Proof.
  clear. intros H. unfold dot. assert (G : forall a, (a + n <= a + n)%nat -> True) by auto. clear G.
  assert (G : forall l, (forall j, In j l -> f j == g j) -> qsum (map (fun j => f j * x j) l) == qsum (map (fun j => g j * x j) l)).
  { induction l as [|a l IH]; intros HL; [reflexivity|]. cbn [map]. rewrite !qsum_cons, (HL a (or_introl eq_refl)), IH by (intros; apply HL; now right). reflexivity. }
  apply G. intros j Hj. apply in_seq in Hj. apply H. lia.
Qed.
Lemma dot_lin n f g c x : dot n (fun j => f j + c * g j) x == dot n f x + c * dot n g x.
Proof. clear. unfold dot. induction (seq 0 n) as [|a l IH]; [cbn [map]; rewrite !qsum_nil; ring|]. cbn [map]. rewrite !qsum_cons, IH. ring. Qed.
Lemma dot_scale n f v x : ~ v == 0 -> dot n (fun j => f j / v) x == dot n f x / v.
Proof. clear. intros V. unfold dot. induction (seq 0 n) as [|a l IH]; [cbn [map]; rewrite !qsum_nil; field; auto|]. cbn [map]. rewrite !qsum_cons, IH. field. auto. Qed.

Definition same (f g : nat -> nat -> Q) : Prop := forall x, solves nr nc f x <-> solves nr nc g x.
Lemma same_refl f : same f f.
Proof. intros x. tauto. Qed.
Lemma same_trans f g h : same f g -> same g h -> same f h.
Proof. intros A B x. etransitivity; [apply A|apply B]. Qed.
Lemma same_swap f a b : (a < nr)%nat -> (b < nr)%nat -> same f (fswap f a b).
Proof.
  intros Ha Hb x. split; intros H i Hi.
  - unfold fswap. destruct (i =? a)%nat; [exact (H b Hb)|]. destruct (i =? b)%nat; [exact (H a Ha)|exact (H i Hi)].
  - destruct (Nat.eqb_spec i a) as [->|N1].
    + specialize (H b Hb). unfold fswap in H. destruct (Nat.eqb_spec b a) as [->|N]; [exact H|]. now rewrite Nat.eqb_refl in H.
    + destruct (Nat.eqb_spec i b) as [->|N2]; [specialize (H a Ha); unfold fswap in H; now rewrite Nat.eqb_refl in H|]. specialize (H i Hi). unfold fswap in H. replace (i =? a)%nat with false in H by lia. now replace (i =? b)%nat with false in H by lia.
Qed.
Lemma same_div f r v : ~ v == 0 -> same f (fdiv f r v).
Proof.
  intros V x. split; intros H i Hi; specialize (H i Hi); unfold fdiv in *; destruct (i =? r)%nat; auto.
  - rewrite dot_scale, H by exact V. field. exact V.
  - rewrite dot_scale in H by exact V. setoid_replace (dot nc (f i) x) with (dot nc (f i) x / v * v) by (field; exact V). rewrite H. ring.
Qed.
Lemma same_acc f a b v : a <> b -> (b < nr)%nat -> same f (facc f a b v).
Proof.
  intros N Hb x. split; intros H i Hi.
  - unfold facc. destruct (Nat.eqb_spec i a); [|exact (H i Hi)]. rewrite dot_lin, (H i Hi), (H b Hb). ring.
  - pose proof (H b Hb) as B. unfold facc in B. replace (b =? a)%nat with false in B by lia. specialize (H i Hi). unfold facc in H. destruct (Nat.eqb_spec i a); [|exact H].
    rewrite dot_lin, B in H. lra.
Qed.
Lemma same_ext f g : (forall i j, (i < nr)%nat -> (j < nc)%nat -> f i j == g i j) -> same f g.
Proof. intros H x. split; intros S i Hi; specialize (S i Hi); [rewrite <- (dot_ext nc (f i) (g i)) by (intros; now apply H)|rewrite (dot_ext nc (f i) (g i)) by (intros; now apply H)]; exact S. Qed.

(** ** Elimination *)
Lemma find_max_ok m f column e : entries m nr nc f -> (column < nc)%nat -> (e < nr)%nat ->
  exists r, find_max exact m column e = Ok r /\ (e <= r < nr)%nat /\ (forall i, (e <= i < nr)%nat -> Qabs (f i column) <= Qabs (f r column)).
Proof.
  intros E Hc He. unfold find_max. pose proof E as (E1 & _). rewrite E1.
  destruct (for_inv (fun maxrow i => let! x := m_get exact m maxrow column in let! y := m_get exact m i column in Ok (if nlt (dabs exact x) (dabs exact y) then i else maxrow))
    (fun k r => (e <= r < nr)%nat /\ (forall i, (e <= i < k)%nat -> Qabs (f i column) <= Qabs (f r column))) (e + 1) (nr - (e + 1)) e) as (r & Er & Hr1 & Hr2).
  - split; [lia|]. intros i Hi. replace i with e by lia. apply Qle_refl.
  - intros k r Hk (R1 & R2). destruct (get_ok m f r column E ltac:(lia) Hc) as (x & Ex & Qx), (get_ok m f k column E ltac:(lia) Hc) as (y & Ey & Qy). rewrite Ex. cbn [bind]. rewrite Ey. cbn [bind]. eexists. split; [reflexivity|].
    destruct (xabs_fin x) as (ax & -> & Eax), (xabs_fin y) as (ay & -> & Eay). change (@nlt exact (Fin ax) (Fin ay)) with (xlt (Fin ax) (Fin ay)). rewrite Qx in Eax. rewrite Qy in Eay. destruct (xlt (Fin ax) (Fin ay)) eqn:L.
    + apply xlt_fin in L. split; [lia|]. intros i Hi. destruct (Nat.eq_dec i k) as [->|N]; [apply Qle_refl|]. specialize (R2 i ltac:(lia)). lra.
    + apply xlt_fin_false in L. split; [lia|]. intros i Hi. destruct (Nat.eq_dec i k) as [->|N]; [lra|]. apply R2. lia.
  - exists r. split; [exact Er|]. split; [exact Hr1|]. intros i Hi. apply Hr2. lia.
Qed.

(** the first c columns are those of a triangular matrix with a unit diagonal *)
Local Notation tri f c := (forall k i : nat, (k < c)%nat -> (k <= i < nr)%nat -> f i k == (if (i =? k)%nat then 1 else 0)).

Lemma eliminate_ok eps m f e column f0 : 0 < eps -> entries m nr nc f -> same f0 f -> (column < nc)%nat -> (e <= column)%nat -> (e <= nr)%nat -> (e = column -> tri f column) ->
  exists m' e' f', eliminate exact (Fin eps : exact) (m, e) column = Ok (m', e') /\ entries m' nr nc f' /\ same f0 f' /\ (e' <= S column)%nat /\ (e' <= nr)%nat /\ (e' = S column -> tri f' (S column)) /\
    (e' = e /\ (e = nr \/ forall i, (e <= i < nr)%nat -> Qabs (f i column) < eps) \/ e' = S e).
Proof.
  intros Heps E S0 Hc Hec Hen Ht. unfold eliminate. pose proof E as (E1 & _). rewrite E1. destruct (Nat.eqb_spec e nr) as [->|Ne].
  - exists m, nr, f. split; [reflexivity|]. split; [exact E|]. split; [exact S0|]. split; [lia|]. split; [lia|]. split; [lia|]. left. auto.
  - assert (He : (e < nr)%nat) by lia. destruct (find_max_ok m f column e E Hc He) as (r & Er & Hr & Hmax). rewrite Er. cbn [bind].
    destruct (swapRows_ok m f r e E ltac:(lia) He) as (m1 & Em1 & I1). rewrite Em1. cbn [bind]. set (f1 := fswap f r e) in *.
    assert (S1 : same f0 f1) by (eapply same_trans; [exact S0|apply same_swap; lia]).
    destruct (get_ok m1 f1 e column I1 He Hc) as (p & Ep & Qp). rewrite Ep. cbn [bind].
    assert (F1 : f1 e column == f r column). { unfold f1, fswap. destruct (Nat.eqb_spec e r) as [->|N]; [reflexivity|]. now rewrite Nat.eqb_refl. }
    assert (T1 : e = column -> tri f1 column).
    { intros ->. intros k i Hk Hi. specialize (Ht eq_refl). unfold f1, fswap. destruct (Nat.eqb_spec i r) as [->|N1]; [rewrite Ht by lia; replace (column =? k)%nat with false by lia; replace (r =? k)%nat with false by lia; reflexivity|].
      destruct (Nat.eqb_spec i column) as [->|N2]; [rewrite Ht by lia; replace (column =? k)%nat with false by lia; replace (r =? k)%nat with false by lia; reflexivity|]. apply Ht; lia. }
    assert (DZ : d_eq exact (Fin eps : exact) (Fin p : exact) (of_int 0) = true <-> Qabs p < eps).
    { change (of_int (a := exact) 0) with (Fin 0). rewrite d_eq_exact. assert (M : Qmin (Qabs p) (Qabs 0) == 0) by (rewrite Q.min_r; [reflexivity|apply Qabs_nonneg]).
      setoid_replace (p - 0) with p by ring. split; [intros [[_ H]|[H _]]; [exact H|contradiction]|intros H; left; auto]. }
    destruct (d_eq exact (Fin eps : exact) (Fin p : exact) (of_int 0)) eqn:D.
    + exists m1, e, f1. split; [reflexivity|]. split; [exact I1|]. split; [exact S1|]. split; [lia|]. split; [lia|]. split; [lia|]. left. split; [reflexivity|]. right. intros i Hi. specialize (Hmax i Hi). assert (P : Qabs p < eps) by now apply DZ. rewrite Qp, F1 in P. lra.
    + assert (Pnz : ~ p == 0). { intros C. destruct DZ as [_ DZ]. discriminate DZ. rewrite C. exact Heps. }
      destruct (divRow_ok m1 f1 e p I1 He Pnz) as (m2 & Em2 & I2). rewrite Em2. cbn [bind]. set (f2 := fdiv f1 e p) in *.
      assert (S2 : same f0 f2) by (eapply same_trans; [exact S1|now apply same_div]).
      assert (T2 : e = column -> tri f2 column /\ f2 e e == 1).
      { intros Q. specialize (T1 Q). split.
        - intros k i Hk Hi. unfold f2, fdiv. destruct (Nat.eqb_spec i e) as [->|N]; [|now apply T1]. rewrite T1 by lia. replace (e =? k)%nat with false by lia. field. exact Pnz.
        - unfold f2, fdiv. rewrite Nat.eqb_refl. subst column. rewrite <- Qp. field. exact Pnz. }
      pose proof I2 as (E2 & _). rewrite E2.
      destruct (for_inv (fun m i => let! x := m_get exact m i column in accumMultiply exact m i e (nopp x))
        (fun k m => exists g, entries m nr nc g /\ same f0 g /\ (forall j, (j < nc)%nat -> g e j == f2 e j) /\
           (e = column -> tri g column /\ forall i, (e < i < k)%nat -> g i e == 0)) (e + 1) (nr - (e + 1)) m2) as (m3 & Em3 & g & I3 & S3 & G1 & G2).
      * exists f2. split; [exact I2|]. split; [exact S2|]. split; [intros; reflexivity|]. intros Q. split; [now apply T2|]. intros i Hi. lia.
      * intros k m3 Hk (g & I3 & S3 & G1 & G2). destruct (get_ok m3 g k column I3 ltac:(lia) Hc) as (x & Ex & Qx). rewrite Ex. cbn [bind]. change (@nopp exact (Fin x)) with (Fin (- x)).
        destruct (accum_ok m3 g k e (- x) I3 ltac:(lia) He) as (m4 & Em4 & I4). exists m4. split; [exact Em4|]. exists (facc g k e (- x)). split; [exact I4|].
        split; [eapply same_trans; [exact S3|apply same_acc; lia]|]. split; [intros j Hj; unfold facc; replace (e =? k)%nat with false by lia; now apply G1|].
        intros Q. destruct (G2 Q) as (G3 & G4). split.
        -- intros c i Hci Hi. unfold facc. destruct (Nat.eqb_spec i k) as [->|N]; [|now apply G3]. rewrite (G3 c k) by lia. rewrite (G3 c e) by lia. replace (k =? c)%nat with false by lia. replace (e =? c)%nat with false by lia. ring.
        -- intros i Hi. unfold facc. destruct (Nat.eqb_spec i k) as [->|N]; [|apply G4; lia]. rewrite (G1 e) by lia. destruct (T2 Q) as (_ & ->). rewrite Qx. subst column. ring.
      * exists m3, (e + 1)%nat, g. rewrite Em3. cbn [bind]. split; [reflexivity|]. split; [exact I3|]. split; [exact S3|]. split; [lia|]. split; [lia|]. split; [|right; lia].
        intros Q. assert (Q' : e = column) by lia. destruct (G2 Q') as (G3 & G4). intros k i Hk Hi. destruct (Nat.eq_dec k column) as [->|N]; [|apply G3; lia].
        destruct (Nat.eqb_spec i column) as [->|N]; [subst column; rewrite G1 by lia; now apply T2|]. subst column. apply G4. lia.
Qed.

(** ** Back substitution *)
(** [f] is triangular up to [c], and its columns from [k] to [c] are unit columns *)
Local Notation unit_from f k c := (forall j i : nat, (k <= j < c)%nat -> (i < nr)%nat -> f i j == (if (i =? j)%nat then 1 else 0)).
Lemma back_ok m f c f0 : entries m nr nc f -> same f0 f -> (0 < c)%nat -> (c <= nc)%nat -> (c <= nr)%nat -> tri f c ->
  exists m' f', back exact m c = Ok m' /\ entries m' nr nc f' /\ same f0 f' /\ unit_from f' 0 c.
Proof.
  intros E S0 Hc Hcn Hcr HT. unfold back. replace (c =? 0)%nat with false by lia.
  destruct (for_down (fun m column => for_cols (fun m i => let! x := m_get exact m i column in accumMultiply exact m i column (nopp x)) (seq 0 column) m)
    (fun k m => exists g, entries m nr nc g /\ same f0 g /\ tri g c /\ unit_from g k c) 1 (c - 1) m) as (m' & E' & g & I & S1 & T & U).
  - exists f. split; [exact E|]. split; [exact S0|]. split; [exact HT|]. intros j i Hj. lia.
  - intros k m1 Hk (g & I & S1 & T & U).
    destruct (for_inv (fun m i => let! x := m_get exact m i k in accumMultiply exact m i k (nopp x))
      (fun n m => exists h, entries m nr nc h /\ same f0 h /\ tri h c /\ unit_from h (S k) c /\ (forall i, (i < n)%nat -> h i k == 0)) 0 k m1) as (m2 & E2 & h & I2 & S2 & T2 & U2 & Z2).
    + exists g. split; [exact I|]. split; [exact S1|]. split; [exact T|]. split; [exact U|]. intros i Hi. lia.
    + intros n m2 Hn (h & I2 & S2 & T2 & U2 & Z2). destruct (get_ok m2 h n k I2 ltac:(lia) ltac:(lia)) as (x & Ex & Qx). rewrite Ex. cbn [bind]. change (@nopp exact (Fin x)) with (Fin (- x)).
      destruct (accum_ok m2 h n k (- x) I2 ltac:(lia) ltac:(lia)) as (m3 & E3 & I3). exists m3. split; [exact E3|]. exists (facc h n k (- x)). split; [exact I3|]. split; [eapply same_trans; [exact S2|apply same_acc; lia]|].
      split; [|split].
      * intros j i Hj Hi. unfold facc. destruct (Nat.eqb_spec i n) as [->|N]; [|now apply T2]. rewrite (T2 j n) by lia. rewrite (T2 j k) by lia. replace (k =? j)%nat with false by lia. ring.
      * intros j i Hj Hi. unfold facc. destruct (Nat.eqb_spec i n) as [->|N]; [|now apply U2]. rewrite (U2 j n) by lia. rewrite (U2 j k) by lia. replace (k =? j)%nat with false by lia. ring.
      * intros i Hi. unfold facc. destruct (Nat.eqb_spec i n) as [->|N]; [|apply Z2; lia]. rewrite (T2 k k) by lia. rewrite Nat.eqb_refl, Qx. ring.
    + exists m2. split; [exact E2|]. exists h. split; [exact I2|]. split; [exact S2|]. split; [exact T2|]. intros j i Hj Hi. destruct (Nat.eq_dec j k) as [->|N]; [|apply U2; lia].
      destruct (Nat.lt_ge_cases i k); [rewrite Z2 by lia; replace (i =? k)%nat with false by lia; reflexivity|apply T2; lia].
  - exists m', g. split; [exact E'|]. split; [exact I|]. split; [exact S1|]. intros j i Hj Hi. destruct (Nat.eq_dec j 0) as [->|N]; [apply T; lia|apply U; lia].
Qed.
End FX.
