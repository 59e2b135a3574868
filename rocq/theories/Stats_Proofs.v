From Coq Require Import List ZArith QArith Lqa Lia ZifyBool Permutation Setoid.
From Verif Require Import Common Arith Stats_Spec Stats_Model.
Import ListNotations.
Local Open Scope Q_scope.
#[global] Arguments Qeq : simpl never.
#[global] Arguments Qle : simpl never.
#[global] Arguments Qlt : simpl never.
#[global] Arguments Qplus : simpl never.
#[global] Arguments Qmult : simpl never.
#[global] Arguments Qminus : simpl never.
#[global] Arguments Qopp : simpl never.
#[global] Arguments Qdiv : simpl never.
#[global] Arguments Qinv : simpl never.
#[global] Arguments Qle_bool : simpl never.
#[global] Arguments Qeq_bool : simpl never.

Lemma Qle_bool_false : forall a b, Qle_bool a b = false <-> b < a.
Proof.
  intros a b. split; intros H.
  - destruct (Qlt_le_dec b a) as [L|L]; [exact L|]. apply Qle_bool_iff in L. congruence.
  - destruct (Qle_bool a b) eqn:E; [|reflexivity]. apply Qle_bool_iff in E. lra.
Qed.
Lemma Qeq_bool_false : forall a b, Qeq_bool a b = false <-> ~ a == b.
Proof.
  intros a b. split; intros H.
  - now apply Qeq_bool_neq.
  - destruct (Qeq_bool a b) eqn:E; [|reflexivity]. apply Qeq_bool_eq in E. contradiction.
Qed.
Lemma xlt_fin : forall a b, xlt (Fin a) (Fin b) = true <-> a < b.
Proof. intros a b. cbn. rewrite Bool.negb_true_iff. apply Qle_bool_false. Qed.
Lemma xlt_fin_false : forall a b, xlt (Fin a) (Fin b) = false <-> b <= a.
Proof. intros a b. cbn. rewrite Bool.negb_false_iff. apply Qle_bool_iff. Qed.

Lemma qsum_cons : forall a l, qsum (a :: l) = a + qsum l.
Proof. reflexivity. Qed.
Lemma qsum_nil : qsum [] = 0.
Proof. reflexivity. Qed.
#[global] Arguments qsum : simpl never.
Lemma qsum_app : forall l m, qsum (l ++ m) == qsum l + qsum m.
Proof. induction l as [|a l IH]; intros m; cbn [app]; rewrite ?qsum_cons, ?qsum_nil; [lra|]. rewrite IH. lra. Qed.
Lemma qsum_one : forall x, qsum [x] == x.
Proof. intros x. rewrite qsum_cons, qsum_nil. lra. Qed.
Lemma qsumsq_app : forall l m, qsumsq (l ++ m) == qsumsq l + qsumsq m.
Proof. intros l m. unfold qsumsq. rewrite map_app. apply qsum_app. Qed.
Lemma qsumsq_one : forall x, qsumsq [x] == x * x.
Proof. intros x. unfold qsumsq. cbn [map]. apply qsum_one. Qed.
Lemma qsum_perm : forall l m, Permutation l m -> qsum l == qsum m.
Proof.
  induction 1; rewrite ?qsum_cons.
  - reflexivity.
  - now rewrite IHPermutation.
  - lra.
  - now rewrite IHPermutation1.
Qed.

Lemma is_min_snoc : forall m l x, is_min m l -> is_min (if xlt (Fin x) m then Fin x else m) (l ++ [x]).
Proof.
  intros m l x [[-> ->]|(q & -> & I & L)]; right.
  - exists x. cbn. repeat split; auto. intros y [<-|[]]. lra.
  - destruct (xlt (Fin x) (Fin q)) eqn:E.
    + apply xlt_fin in E. exists x. repeat split; [apply in_or_app; right; now left|].
      intros y Hy. apply in_app_or in Hy as [Hy|[<-|[]]]; [|lra]. specialize (L y Hy). lra.
    + apply xlt_fin_false in E. exists q. repeat split; [apply in_or_app; now left|].
      intros y Hy. apply in_app_or in Hy as [Hy|[<-|[]]]; [auto|lra].
Qed.
Lemma is_max_snoc : forall m l x, is_max m l -> is_max (if xlt m (Fin x) then Fin x else m) (l ++ [x]).
Proof.
  intros m l x [[-> ->]|(q & -> & I & L)]; right.
  - exists x. cbn. repeat split; auto. intros y [<-|[]]. lra.
  - destruct (xlt (Fin q) (Fin x)) eqn:E.
    + apply xlt_fin in E. exists x. repeat split; [apply in_or_app; right; now left|].
      intros y Hy. apply in_app_or in Hy as [Hy|[<-|[]]]; [|lra]. specialize (L y Hy). lra.
    + apply xlt_fin_false in E. exists q. repeat split; [apply in_or_app; now left|].
      intros y Hy. apply in_app_or in Hy as [Hy|[<-|[]]]; [auto|lra].
Qed.
Lemma is_min_app : forall m n l k, is_min m l -> is_min n k -> is_min (if xlt n m then n else m) (l ++ k).
Proof.
  intros m n l k [[-> ->]|(q & -> & I & L)] [[-> ->]|(r & -> & J & K)]; cbn [app].
  - left. now split.
  - cbn. right. exists r. auto.
  - rewrite app_nil_r. cbn. right. exists q. auto.
  - right. destruct (xlt (Fin r) (Fin q)) eqn:E.
    + apply xlt_fin in E. exists r. repeat split; [apply in_or_app; now right|].
      intros y Hy. apply in_app_or in Hy as [Hy|Hy]; [|auto]. specialize (L y Hy). lra.
    + apply xlt_fin_false in E. exists q. repeat split; [apply in_or_app; now left|].
      intros y Hy. apply in_app_or in Hy as [Hy|Hy]; [auto|]. specialize (K y Hy). lra.
Qed.
Lemma is_max_app : forall m n l k, is_max m l -> is_max n k -> is_max (if xlt m n then n else m) (l ++ k).
Proof.
  intros m n l k [[-> ->]|(q & -> & I & L)] [[-> ->]|(r & -> & J & K)]; cbn [app].
  - left. now split.
  - cbn. right. exists r. auto.
  - rewrite app_nil_r. cbn. right. exists q. auto.
  - right. destruct (xlt (Fin q) (Fin r)) eqn:E.
    + apply xlt_fin in E. exists r. repeat split; [apply in_or_app; now right|].
      intros y Hy. apply in_app_or in Hy as [Hy|Hy]; [|auto]. specialize (L y Hy). lra.
    + apply xlt_fin_false in E. exists q. repeat split; [apply in_or_app; now left|].
      intros y Hy. apply in_app_or in Hy as [Hy|Hy]; [auto|]. specialize (K y Hy). lra.
Qed.

Definition Rep (s : stats exact) (l : list Q) : Prop :=
  number s = (Z.of_nat (length l) mod 2 ^ 64)%Z /\ fin_eq (sum s) (qsum l) /\ fin_eq (sumsq s) (qsumsq l) /\
  is_min (min_value s) l /\ is_max (max_value s) l.

Lemma Rep_new : Rep (st_new exact) [].
Proof.
  unfold Rep. cbn. repeat split.
  - exists (inject_Z 0). now split.
  - exists (inject_Z 0). now split.
  - left. now split.
  - left. now split.
Qed.
Lemma Rep_add : forall s l x, Rep s l -> Rep (st_add exact s (Fin x)) (l ++ [x]).
Proof.
  intros s l x (R1 & (p & P1 & P2) & (q & Q1 & Q2) & R4 & R5). unfold Rep. cbn [number sum sumsq min_value max_value st_add].
  rewrite R1, P1, Q1. repeat split.
  - rewrite app_length. cbn [length]. rewrite Z.add_mod_idemp_l by discriminate. f_equal. lia.
  - exists (p + x). split; [reflexivity|]. rewrite qsum_app, P2, qsum_one. lra.
  - exists (q + x * x). split; [reflexivity|]. rewrite qsumsq_app, Q2, qsumsq_one. lra.
  - now apply is_min_snoc.
  - now apply is_max_snoc.
Qed.
Lemma Rep_merge : forall s l t k, Rep s l -> Rep t k -> Rep (st_merge exact s t) (l ++ k).
Proof.
  intros s l t k (R1 & (p & P1 & P2) & (q & Q1 & Q2) & R4 & R5) (S1 & (a & A1 & A2) & (b & B1 & B2) & S4 & S5).
  unfold Rep. cbn [number sum sumsq min_value max_value st_merge].
  rewrite R1, P1, Q1, S1, A1, B1. repeat split.
  - rewrite app_length. rewrite <- Z.add_mod by discriminate. f_equal. lia.
  - exists (p + a). split; [reflexivity|]. rewrite qsum_app, P2, A2. reflexivity.
  - exists (q + b). split; [reflexivity|]. rewrite qsumsq_app, Q2, B2. reflexivity.
  - now apply is_min_app.
  - now apply is_max_app.
Qed.

Section Run.
Context {X : Type} (A : arith) (val : X -> A) (R : stats A -> list X -> Prop).
Hypothesis R_new : R (st_new A) [].
Hypothesis R_add : forall s l x, R s l -> R (st_add A s (val x)) (l ++ [x]).
Hypothesis R_merge : forall s l t k, R s l -> R t k -> R (st_merge A s t) (l ++ k).
Lemma run_ind : forall ops i, R (st_run A val ops i) (samples ops i).
Proof.
  intros ops. unfold st_run, samples.
  assert (G : forall f g, (forall i, R (f i) (g i)) -> forall i, R (fold_left (st_step A val) ops f i) (fold_left samples_step ops g i)).
  { induction ops as [|o ops IH]; intros f g H i; cbn [fold_left]; [apply H|]. apply IH. clear i. intros k.
    destruct o as [i x|i j|i]; cbn [st_step samples_step]; unfold set_nth; destruct (Nat.eqb k i).
    - apply R_add, H.
    - apply H.
    - apply R_merge; apply H.
    - apply H.
    - apply R_new.
    - apply H. }
  apply G. intros i. apply R_new.
Qed.
End Run.
Lemma run_rep : forall ops i, Rep (st_run exact Fin ops i) (samples ops i).
Proof. apply (run_ind exact Fin Rep); [apply Rep_new|apply Rep_add|apply Rep_merge]. Qed.

Lemma Rep_number : forall s l, Rep s l -> (Z.of_nat (length l) < 2 ^ 64)%Z -> number s = Z.of_nat (length l).
Proof. intros s l (R & _) H. rewrite R. apply Z.mod_small. lia. Qed.
Lemma qlen_pos : forall l, l <> [] -> 0 < qlen l.
Proof. intros [|a l] H; [congruence|]. unfold qlen, Qlt. cbn [Qnum Qden inject_Z length]. lia. Qed.
Lemma len_nz : forall l : list Q, l <> [] -> (Z.of_nat (length l) =? 0)%Z = false.
Proof. intros [|a l] H; [congruence|]. cbn [length]. lia. Qed.
Lemma fin_div : forall (p a : Q) x n, x = Fin p -> p == a -> ~ inject_Z n == 0 -> fin_eq (xdiv x (Fin (inject_Z n))) (a / inject_Z n).
Proof.
  intros p a x n -> E N. cbn [xdiv]. destruct (Qeq_bool (inject_Z n) 0) eqn:B; [apply Qeq_bool_eq in B; contradiction|].
  exists (p / inject_Z n). split; [reflexivity|]. now rewrite E.
Qed.
Lemma Rep_mean : forall s l, Rep s l -> (Z.of_nat (length l) < 2 ^ 64)%Z -> l <> [] -> fin_eq (st_mean exact s) (qmean l).
Proof.
  intros s l R H N. pose proof (Rep_number _ _ R H) as E. destruct R as (_ & (p & P1 & P2) & _).
  pose proof (qlen_pos l N) as P. unfold st_mean. rewrite E.
  rewrite (len_nz l N).
  unfold qmean, qlen in *. apply (fin_div p); auto. intros F. lra.
Qed.
Lemma qvar_shift : forall l m, qsum (map (fun x => (x - m) * (x - m)) l) == qsumsq l - (2 * m) * qsum l + qlen l * (m * m).
Proof.
  intros l m. unfold qsumsq, qlen. induction l as [|a l IH]; [cbn [map length]; rewrite ?qsum_nil; cbn; ring|].
  cbn [map length]. rewrite !qsum_cons.
  rewrite IH, Nat2Z.inj_succ. unfold Z.succ. rewrite inject_Z_plus. ring.
Qed.
Lemma Rep_variance : forall s l, Rep s l -> (Z.of_nat (length l) < 2 ^ 64)%Z -> l <> [] -> fin_eq (st_variance exact s) (qvar l).
Proof.
  intros s l R H N. pose proof (Rep_number _ _ R H) as E. destruct (Rep_mean _ _ R H N) as (m & M1 & M2).
  destruct R as (_ & _ & (q & Q1 & Q2) & _). pose proof (qlen_pos l N) as P. unfold st_variance. rewrite M1, E.
  rewrite (len_nz l N).
  destruct (fin_div q (qsumsq l) (sumsq s) (Z.of_nat (length l)) Q1 Q2) as (d & D1 & D2); [unfold qlen in P; intros F; lra|].
  cbn [nsub nmul ndiv of_int exact] in *. rewrite D1. cbn. eexists. split; [reflexivity|].
  fold (qlen l) in D2. rewrite D2, M2. unfold qvar. rewrite qvar_shift. unfold qmean. field. lra.
Qed.
Lemma qsqr_nonneg : forall x, 0 <= x * x.
Proof.
  intros x. destruct (Qlt_le_dec x 0) as [H|H]; [|now apply Qmult_le_0_compat].
  setoid_replace (x * x) with ((- x) * (- x)) by ring. apply Qmult_le_0_compat; lra.
Qed.
Lemma qvar_nonneg : forall l, 0 <= qvar l.
Proof.
  intros l. destruct l as [|a l]; [vm_compute; discriminate|]. unfold qvar.
  pose proof (qlen_pos (a :: l)) as P. assert (N : a :: l <> []) by discriminate. specialize (P N).
  apply Qle_shift_div_l; [exact P|]. rewrite Qmult_0_l.
  generalize (qmean (a :: l)) as m. intros m. generalize (a :: l). intros k. induction k as [|x k IH]; cbn [map]; rewrite ?qsum_cons, ?qsum_nil; [lra|].
  assert (0 <= (x - m) * (x - m)) by apply qsqr_nonneg. lra.
Qed.

