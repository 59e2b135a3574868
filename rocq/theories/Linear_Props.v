(** C42: LeastSquares. C65: Matrix::gaussEliminate. *)
From Coq Require Import List Arith ZArith QArith Qabs Qminmax Lqa Lia Bool ZifyBool ZifyNat.
From Verif Require Import Common CommonFacts Arith Stats_Spec Stats_Proofs Double_Model Double_Exact Linear_Model Linear_Spec Linear_Proofs Matrix_Proofs.
Import ListNotations.
Local Open Scope Q_scope.

(** C42. The data the object can hold: add accepts exactly the positive weights. *)
Theorem C42_add : forall data x y w, (0 < w -> ls_add exact data (Fin x) (Fin y) (Fin w) = Ok (data ++ [to_point (x, y, w)])) /\
  (w <= 0 -> ls_add exact data (Fin x) (Fin y) (Fin w) = Abort).
Proof.
  intros data x y w. unfold ls_add. change (@nlt exact (of_int 0) (Fin w)) with (xlt (Fin 0) (Fin w)). split; intros H.
  - replace (xlt (Fin 0) (Fin w)) with true by (symmetry; now apply xlt_fin). reflexivity.
  - replace (xlt (Fin 0) (Fin w)) with false by (symmetry; now apply xlt_fin_false). reflexivity.
Qed.
Print Assumptions C42_add.

(** C42. For every set of points with positive weights, among them two with
    different x, the fit succeeds and has the least weighted squared vertical
    error of all lines, and is the only such line. Otherwise the fit stops the
    program. *)
Theorem C42_least_squares : forall l : list qpoint, (forall p, In p l -> 0 < snd p) ->
  ((exists p q, In p l /\ In q l /\ ~ fst (fst p) == fst (fst q)) ->
    exists a b, fit exact (map to_point l) = Ok (Fin a : exact, Fin b : exact) /\
    (forall a' b', error a b l <= error a' b' l) /\
    (forall a' b', error a' b' l <= error a b l -> a' == a /\ b' == b)) /\
  ((forall p q, In p l -> In q l -> fst (fst p) == fst (fst q)) -> fit exact (map to_point l) = Abort).
Proof.
  intros l P. split.
  - intros (p & q & Hp & Hq & N). assert (L : (1 < length l)%nat).
    { destruct l as [|u [|v l]]; [destruct Hp| |cbn; lia]. destruct Hp as [<-|[]], Hq as [<-|[]]. exfalso. apply N. reflexivity. }
    assert (D : ~ den l == 0) by (intros Z; apply N; now apply (proj1 (den_zero l P) Z)).
    destruct (fit_ok l P L D) as (a & b & E & N1 & N2). exists a, b. split; [exact E|].
    assert (X : forall a' b', error a' b' l == error a b l + wsum (fun x _ => ((a' - a) + (b' - b) * x) * ((a' - a) + (b' - b) * x)) l).
    { intros a' b'. pose proof (error_shift a b (a' - a) (b' - b) l) as H. rewrite <- N1, <- N2 in H.
      assert (R : error a' b' l == error (a + (a' - a)) (b + (b' - b)) l).
      { unfold error. clear. induction l as [|[[x y] w] l IH]; [reflexivity|]. cbn [map]. rewrite !qsum_cons, IH. setoid_replace (a + (a' - a)) with a' by ring. setoid_replace (b + (b' - b)) with b' by ring. reflexivity. }
      rewrite R, H. ring. }
    split; intros a' b'.
    + rewrite (X a' b'). pose proof (gain_nonneg (a' - a) (b' - b) l P). lra.
    + rewrite (X a' b'). intros H. pose proof (gain_nonneg (a' - a) (b' - b) l P) as G. assert (Z : wsum (fun x _ => ((a' - a) + (b' - b) * x) * ((a' - a) + (b' - b) * x)) l == 0) by lra.
      pose proof (gain_zero _ _ l P Z p Hp) as Z1. pose proof (gain_zero _ _ l P Z q Hq) as Z2.
      assert (Z3 : (b' - b) * (fst (fst p) - fst (fst q)) == 0). { setoid_replace ((b' - b) * (fst (fst p) - fst (fst q))) with ((a' - a + (b' - b) * fst (fst p)) - (a' - a + (b' - b) * fst (fst q))) by ring. rewrite Z1, Z2. ring. }
      apply Qmult_integral in Z3. destruct Z3 as [Z3|Z3]; [|exfalso; apply N; lra]. rewrite Z3 in Z1. split; lra.
  - intros H. pose proof (proj2 (den_zero l P) H) as D. unfold fit. rewrite map_length. destruct (Nat.ltb_spec 1 (length l)); [|reflexivity]. cbn [invariant bind].
    assert (S0 : SR (mkSums exact (of_int 0) (of_int 0) (of_int 0) (of_int 0) (of_int 0)) []) by (unfold SR; cbn; repeat split; exists 0; split; reflexivity).
    pose proof (loop_ok l [] _ S0) as HL. cbn [app] in HL. set (s := ls_loop _ _ _) in *. clearbody s. destruct HL as ((a & Ea & Ha) & (b & Eb & Hb) & (c & Ec & Hc) & (d & Ed & Hd) & (e & Ee & He)).
    rewrite Ea, Eb, Ed. unfold den in D. rewrite <- Ha, <- Hb, <- Hd in D. cbn [num nadd nsub nmul neq exact xadd xsub xmul xopp xeq of_int].
    replace (Qeq_bool (a * d + - (b * b)) (inject_Z 0)) with true by (symmetry; apply Qeq_bool_iff; exact D). reflexivity.
Qed.
Print Assumptions C42_least_squares.
Example C42_ex : exists a b, fit exact (map to_point [(0, 1, 1); (1, 3, 2); (2, 5, 1)]) = Ok (Fin a : exact, Fin b : exact) /\ a == 1 /\ b == 2.
Proof. eexists. eexists. split; [vm_compute; reflexivity|]. split; reflexivity. Qed.

(** ** C65 *)
(** C65. gaussEliminate(maxcolumn) of a matrix of any size with entries [f], exact
    arithmetic: it keeps the set of solutions of the linear system, and when it
    reports that all [mc] columns were eliminated, those columns are the unit
    columns. *)
Theorem C65_gauss : forall eps m nr nc f maxcolumn mc, 0 < eps -> (Z.of_nat nr * Z.of_nat nc < 2 ^ 32)%Z -> entries m nr nc f ->
  (maxcolumn = Z.of_nat mc \/ maxcolumn = (-1)%Z /\ mc = Nat.min nr nc) -> (0 < mc <= nc)%nat ->
  exists m' k f', gaussEliminate exact (Fin eps) m maxcolumn = Ok (m', k) /\ entries m' nr nc f' /\ (k <= mc)%nat /\ (k <= nr)%nat /\
  (forall x, solves nr nc f x <-> solves nr nc f' x) /\
  (k = mc -> forall i j, (i < nr)%nat -> (j < mc)%nat -> f' i j == (if (i =? j)%nat then 1 else 0)).
Proof.
  intros eps m nr nc f maxcolumn mc He Hs E HM Hmc. unfold gaussEliminate. pose proof E as (E1 & E2 & _).
  assert (M : (if (maxcolumn =? -1)%Z then Z.of_nat (Nat.min (nrows m) (ncols m)) else maxcolumn) = Z.of_nat mc).
  { rewrite E1, E2. destruct HM as [->|(-> & ->)]; [|reflexivity]. replace (Z.of_nat mc =? -1)%Z with false by lia. reflexivity. }
  rewrite M, Nat2Z.id.
  destruct (for_inv (eliminate exact (Fin eps)) (fun c st => exists g, entries (fst st) nr nc g /\ same nr nc f g /\ (snd st <= c)%nat /\ (snd st <= nr)%nat /\
    (snd st = c -> forall k i : nat, (k < c)%nat -> (k <= i < nr)%nat -> g i k == (if (i =? k)%nat then 1 else 0))) 0 mc (m, 0%nat)) as ([m1 e] & R & g & I & S & L1 & L2 & T).
  - exists f. cbn. split; [exact E|]. split; [apply same_refl|]. split; [lia|]. split; [lia|]. intros _ k i Hk. lia.
  - intros c [m1 e] Hc (g & I & S & L1 & L2 & T). cbn in *. destruct (eliminate_ok nr nc Hs eps m1 g e c f He I S ltac:(lia) L1 L2 T) as (m2 & e2 & g2 & R2 & I2 & S2 & A1 & A2 & T2 & _).
    exists (m2, e2). split; [exact R2|]. exists g2. cbn. auto.
  - rewrite R. cbn [bind]. cbn in I, L1, L2, T. destruct (Z.eqb_spec (Z.of_nat e) (Z.of_nat mc)) as [Q|Q].
    + assert (e = mc) by lia. subst e. destruct (back_ok nr nc Hs m1 g mc f I S ltac:(lia) ltac:(lia) L2 (T eq_refl)) as (m2 & g2 & R2 & I2 & S2 & U). rewrite R2. cbn [bind].
      exists m2, mc, g2. split; [reflexivity|]. split; [exact I2|]. split; [lia|]. split; [exact L2|]. split; [exact S2|]. intros _ i j Hi Hj. apply U; lia.
    + exists m1, e, g. split; [reflexivity|]. split; [exact I|]. split; [exact L1|]. split; [exact L2|]. split; [exact S|]. intros C. lia.
Qed.
Print Assumptions C65_gauss.

Lemma dot_S n f x : dot (S n) f x == dot n f x + f n * x n.
Proof. unfold dot. rewrite seq_S, map_app, qsum_app. cbn [map Nat.add]. rewrite qsum_one. reflexivity. Qed.
Lemma dot_x_ext n f x y : (forall j, (j < n)%nat -> x j == y j) -> dot n f x == dot n f y.
Proof. induction n as [|n IH]; intros H; [reflexivity|]. rewrite !dot_S, IH by (intros; apply H; lia). rewrite (H n) by lia. reflexivity. Qed.
Lemma dot_unit n f x i : (i < n)%nat -> (forall j, (j < n)%nat -> f j == (if (i =? j)%nat then 1 else 0)) -> dot n f x == x i.
Proof.
  revert i. induction n as [|n IH]; intros i Hi H; [lia|]. rewrite dot_S, (H n) by lia. destruct (Nat.eqb_spec i n) as [->|N].
  - assert (Z : dot n f x == 0). { clear IH Hi. assert (G : forall k, (k <= n)%nat -> dot k f x == 0). { induction k as [|k IHk]; intros Hk; [reflexivity|]. rewrite dot_S, IHk by lia. rewrite (H k) by lia. replace (n =? k)%nat with false by lia. ring. } now apply G. }
    rewrite Z. ring.
  - rewrite (IH i) by (auto; lia). ring.
Qed.

(** C65. Solving n equations: when gaussEliminate(n) of the n by n+1 matrix (A | b)
    returns n, the last column is the one and only solution of A x = b. *)
Theorem C65_solve : forall eps m n f m' k, 0 < eps -> (0 < n)%nat -> (Z.of_nat n * (Z.of_nat n + 1) < 2 ^ 32)%Z -> entries m n (n + 1) f ->
  gaussEliminate exact (Fin eps) m (Z.of_nat n) = Ok (m', k) -> k = n ->
  exists s, (forall i, (i < n)%nat -> exists v, m_get exact m' i n = Ok v /\ fin_eq v (s i)) /\
  solves_aug n f s /\ (forall x, solves_aug n f x -> forall i, (i < n)%nat -> x i == s i).
Proof.
  intros eps m n f m' k He Hn Hs E R ->. destruct (C65_gauss eps m n (n + 1) f (Z.of_nat n) n He) as (m2 & k & f' & R2 & I & _ & _ & S & U); [nia|exact E|now left|lia|].
  rewrite R in R2. injection R2 as <- <-. specialize (U eq_refl).
  set (ext := fun (x : nat -> Q) j => if (j =? n)%nat then - (1) else x j).
  assert (A : forall g x, solves n (n + 1) g (ext x) <-> solves_aug n g x).
  { intros g x. assert (D : forall i, dot (n + 1) (g i) (ext x) == dot n (g i) x - g i n).
    { intros i. rewrite Nat.add_1_r, dot_S. unfold ext at 2. rewrite Nat.eqb_refl. rewrite (dot_x_ext n (g i) (ext x) x); [ring|]. intros j Hj. unfold ext. replace (j =? n)%nat with false by lia. reflexivity. }
    split; intros H i Hi; specialize (H i Hi); rewrite D in *; lra. }
  assert (B : forall x, solves_aug n f x <-> forall i, (i < n)%nat -> x i == f' i n).
  { intros x. rewrite <- A, S, A. split; intros H i Hi; specialize (H i Hi).
    - rewrite (dot_unit n (f' i) x i Hi) in H; [exact H|]. intros j Hj. apply U; lia.
    - rewrite (dot_unit n (f' i) x i Hi); [exact H|]. intros j Hj. apply U; lia. }
  exists (fun i => f' i n). split; [|split].
  - intros i Hi. destruct I as (_ & _ & _ & I). apply I; lia.
  - apply B. intros; reflexivity.
  - intros x Hx. now apply B.
Qed.
Print Assumptions C65_solve.

Definition ex_matrix : matrix exact := mkMatrix (A := exact) 2 3 (map Fin [0; 2; 4; 3; 1; 5]).
Example C65_ex : exists f m', entries ex_matrix 2 3 f /\ gaussEliminate exact (Fin (1 # 1000)) ex_matrix 2 = Ok (m', 2%nat) /\
  (exists v, m_get exact m' 0 2 = Ok v /\ fin_eq v 1) /\ (exists v, m_get exact m' 1 2 = Ok v /\ fin_eq v 2).
Proof.
  exists (fun i j => nth (i * 3 + j) [0; 2; 4; 3; 1; 5] 0).
  let r := eval vm_compute in (gaussEliminate exact (Fin (1 # 1000)) ex_matrix 2) in match r with Ok (?x, _) => exists x end. split; [|split; [vm_compute; reflexivity|split]].
  - split; [reflexivity|]. split; [reflexivity|]. split; [reflexivity|]. intros i j Hi Hj.
    destruct i as [|[|i]]; [| |lia]; (destruct j as [|[|[|j]]]; [| | |lia]); (eexists; split; [vm_compute; reflexivity|]); eexists; (split; [reflexivity|]); reflexivity.
  - eexists. split; [vm_compute; reflexivity|]. eexists. split; [reflexivity|]. reflexivity.
  - eexists. split; [vm_compute; reflexivity|]. eexists. split; [reflexivity|]. reflexivity.
Qed.

(** A system with exactly one solution is reported as not solvable when its pivot
    is below Double::default_epsilon = 1e-12: 1e-13 x = 1. *)
Theorem C65_tiny_pivot_refuted : exists m', gaussEliminate exact (Fin (1 # 1000000000000)) (mkMatrix (A := exact) 1 2 [Fin (1 # 10000000000000); Fin 1]) 1 = Ok (m', 0%nat).
Proof. eexists. vm_compute. reflexivity. Qed.
Print Assumptions C65_tiny_pivot_refuted.

(** gaussEliminate(0) reads outside the array, for every matrix. *)
Theorem C65_zero_columns_refuted : forall A eps (m : matrix A), gaussEliminate A eps m 0 = UB.
Proof. reflexivity. Qed.
Print Assumptions C65_zero_columns_refuted.

(** The number of entries is computed in 32 bits: Matrix(65536, 65537) is allocated
    with 65536 entries and setting the entry (1, 0) writes outside. *)
Theorem C65_size_refuted : m_set exact (m_new exact (2 ^ 16) (2 ^ 16 + 1)) 1 0 (of_int 1) = UB.
Proof. vm_compute. reflexivity. Qed.
Print Assumptions C65_size_refuted.

(** Every matrix of entries below the size limit can be built by the constructor
    and set. *)
Theorem C65_build : forall nr nc, (Z.of_nat nr * Z.of_nat nc < 2 ^ 32)%Z -> entries (m_new exact nr nc) nr nc (fun _ _ => 0) /\
  forall m f r c v, entries m nr nc f -> (r < nr)%nat -> (c < nc)%nat ->
    exists m', m_set exact m r c (Fin v) = Ok m' /\ entries m' nr nc (fun i j => if ((i =? r) && (j =? c))%nat then v else f i j).
Proof.
  intros nr nc Hs. split; [|intros; now apply set_ok]. assert (L : length (data (m_new exact nr nc)) = (nr * nc)%nat) by (unfold m_new; cbn [data]; rewrite repeat_length, Z.mod_small by nia; nia).
  split; [reflexivity|]. split; [reflexivity|]. split; [exact L|]. intros i j Hi Hj. destruct (idx_eq nr nc Hs (m_new exact nr nc) i j eq_refl Hi Hj) as (E & B). unfold m_get. rewrite E.
  assert (G : nth_error (data (m_new exact nr nc)) (i * nc + j) = Some (Fin 0 : exact)).
  { unfold m_new in *. cbn [data] in *. set (n := Z.to_nat _) in *. rewrite repeat_length in L. apply nth_error_repeat. rewrite L. exact B. }
  exists (Fin 0). split; [now apply get_Some|]. exists 0. split; reflexivity.
Qed.
Print Assumptions C65_build.
