From Coq Require Import List Arith ZArith QArith Lqa Lia Bool ZifyBool ZifyNat.
From Verif Require Import Common CommonFacts ListFacts Arith Stats_Spec Stats_Model Stats_Proofs Series_Model Series_Spec.
Import ListNotations.
Local Open Scope nat_scope.

(** ** The loops *)
Lemma shift_spec (A : arith) n : forall (v : list A), n < length v ->
  exists v', shift A (rev (seq 1 n)) v = Ok v' /\ length v' = length v /\
  forall j, nth_error v' j = if (1 <=? j) && (j <=? n) then nth_error v (j - 1) else nth_error v j.
Proof.
  induction n as [|n IH]; intros v H.
  - exists v. split; [reflexivity|]. split; [reflexivity|]. intros j. replace ((1 <=? j) && (j <=? 0)) with false by lia. reflexivity.
  - rewrite seq_S, rev_app_distr. cbn [rev app shift]. replace (1 + n - 1) with n by lia. destruct (get_lt v n) as (x & Ex & Gx); [lia|]. rewrite Gx. cbn [bind].
    rewrite put_ok by lia. cbn [bind]. destruct (IH (upd v (1 + n) x)) as (v' & E & L & K); [rewrite length_upd; lia|]. exists v'. split; [exact E|]. split; [rewrite L; apply length_upd|].
    intros j. rewrite K. destruct (Nat.eq_dec j (S n)) as [->|Nj].
    + replace ((1 <=? S n) && (S n <=? n)) with false by lia. replace ((1 <=? S n) && (S n <=? S n)) with true by lia. rewrite nth_error_upd_eq by (simpl; lia). rewrite <- Ex. f_equal. lia.
    + destruct ((1 <=? j) && (j <=? n)) eqn:B.
      * replace ((1 <=? j) && (j <=? S n)) with true by lia. apply nth_error_upd_neq. lia.
      * replace ((1 <=? j) && (j <=? S n)) with false by lia. apply nth_error_upd_neq. lia.
Qed.
Lemma add_products_spec (A : arith) (value : A) smp n : forall i (p : list A), i + n <= length p -> i + n <= length smp ->
  exists p', add_products A (seq i n) value smp p = Ok p' /\ length p' = length p /\
  forall j x y, nth_error smp j = Some x -> nth_error p j = Some y -> nth_error p' j = Some (if (i <=? j) && (j <? i + n) then nadd y (nmul value x) else y).
Proof.
  induction n as [|n IH]; intros i p H1 H2.
  - exists p. split; [reflexivity|]. split; [reflexivity|]. intros j x y _ E. replace ((i <=? j) && (j <? i + 0)) with false by lia. exact E.
  - cbn [seq add_products]. destruct (get_lt smp i) as (x0 & Ex & Gx); [lia|]. destruct (get_lt p i) as (y0 & Ey & Gy); [lia|]. rewrite Gx, Gy. cbn [bind]. rewrite put_ok by lia. cbn [bind].
    destruct (IH (S i) (upd p i (nadd y0 (nmul value x0)))) as (p' & E & L & K); [rewrite length_upd; lia|lia|]. exists p'. split; [exact E|]. split; [rewrite L; apply length_upd|].
    intros j x y Hx Hy. destruct (Nat.eq_dec j i) as [->|Nj].
    + assert (x = x0) by congruence. assert (y = y0) by congruence. subst. rewrite (K i x0 (nadd y0 (nmul value x0)) Ex (nth_error_upd_eq p i _ ltac:(lia))).
      replace ((S i <=? i) && (i <? S i + n)) with false by lia. replace ((i <=? i) && (i <? i + S n)) with true by lia. reflexivity.
    + rewrite (K j x y Hx); [|rewrite nth_error_upd_neq by lia; exact Hy]. replace ((S i <=? j) && (j <? S i + n)) with ((i <=? j) && (j <? i + S n)) by lia. reflexivity.
Qed.
Lemma add_first_spec (A : arith) (value : A) n : forall i (p : list A), i + n <= length p ->
  exists p', add_first A (seq i n) value p = Ok p' /\ length p' = length p /\
  forall j y, nth_error p j = Some y -> nth_error p' j = Some (if (i <=? j) && (j <? i + n) then nadd y value else y).
Proof.
  induction n as [|n IH]; intros i p H1.
  - exists p. split; [reflexivity|]. split; [reflexivity|]. intros j y E. replace ((i <=? j) && (j <? i + 0)) with false by lia. exact E.
  - cbn [seq add_first]. destruct (get_lt p i) as (y0 & Ey & Gy); [lia|]. rewrite Gy. cbn [bind]. rewrite put_ok by lia. cbn [bind].
    destruct (IH (S i) (upd p i (nadd y0 value))) as (p' & E & L & K); [rewrite length_upd; lia|]. exists p'. split; [exact E|]. split; [rewrite L; apply length_upd|].
    intros j y Hy. destruct (Nat.eq_dec j i) as [->|Nj].
    + assert (y = y0) by congruence. subst. rewrite (K i (nadd y0 value) (nth_error_upd_eq p i _ ltac:(lia))).
      replace ((S i <=? i) && (i <? S i + n)) with false by lia. replace ((i <=? i) && (i <? i + S n)) with true by lia. reflexivity.
    + rewrite (K j y); [|rewrite nth_error_upd_neq by lia; exact Hy]. replace ((S i <=? j) && (j <? S i + n)) with ((i <=? j) && (j <? i + S n)) by lia. reflexivity.
Qed.

(** ** Sums over indices *)
Implicit Types (f g : nat -> Q) (n k j : nat) (l : list Q).
Definition isum (f : nat -> Q) (n : nat) : Q := qsum (map f (seq 0 n)).
Lemma isum_S f n : (isum f (S n) == isum f n + f n)%Q.
Proof. unfold isum. rewrite seq_S, map_app, qsum_app. cbn [map Nat.add]. rewrite qsum_one. reflexivity. Qed.
Lemma isum_ext f g n : (forall t, (t < n)%nat -> f t == g t)%Q -> (isum f n == isum g n)%Q.
Proof. induction n as [|n IH]; intros H; [reflexivity|]. rewrite !isum_S, IH by (intros; apply H; lia). rewrite (H n) by lia. reflexivity. Qed.
Lemma isum_add f g n : (isum (fun t => f t + g t) n == isum f n + isum g n)%Q.
Proof. induction n as [|n IH]; [reflexivity|]. rewrite !isum_S, IH. ring. Qed.
Lemma isum_scale c f n : (isum (fun t => c * f t) n == c * isum f n)%Q.
Proof. induction n as [|n IH]; [unfold isum; cbn [seq map]; rewrite qsum_nil; ring|]. rewrite !isum_S, IH. ring. Qed.
Lemma isum_const c n : (isum (fun _ => c) n == inject_Z (Z.of_nat n) * c)%Q.
Proof. induction n as [|n IH]; [unfold isum; cbn [seq map]; rewrite qsum_nil; cbn; ring|]. rewrite isum_S, IH, Nat2Z.inj_succ. unfold Z.succ. rewrite inject_Z_plus. ring. Qed.
Lemma isum_le f g n : (forall t, (t < n)%nat -> f t <= g t)%Q -> (isum f n <= isum g n)%Q.
Proof. induction n as [|n IH]; intros H; [unfold isum; cbn [seq map]; lra|]. rewrite !isum_S. specialize (IH (fun t Ht => H t ltac:(lia))). specialize (H n ltac:(lia)). lra. Qed.
Lemma isum_firstn l n : (isum (fun t => nth t l 0) n == qsum (firstn n l))%Q.
Proof.
  induction n as [|n IH]; [reflexivity|]. rewrite isum_S, IH. destruct (Nat.lt_ge_cases n (length l)) as [C|C].
  - destruct (nth_error l n) as [x|] eqn:E; [|apply nth_error_None in E; lia]. rewrite (nth_error_nth l n 0%Q E). clear IH C. revert l E. induction n as [|n IH]; intros [|a l] E; try discriminate.
    + cbn in E. injection E as ->. cbn [firstn]. rewrite qsum_one, qsum_nil. lra.
    + cbn [nth_error] in E. specialize (IH l E). change (firstn (S (S n)) (a :: l)) with (a :: firstn (S n) l). change (firstn (S n) (a :: l)) with (a :: firstn n l). rewrite !qsum_cons. lra.
  - rewrite nth_overflow, !firstn_all2 by lia. lra.
Qed.
Lemma isum_skipn l k n : (isum (fun t => nth (t + k) l 0) n == qsum (firstn n (skipn k l)))%Q.
Proof.
  rewrite <- isum_firstn. apply isum_ext. intros t _. rewrite Nat.add_comm. revert l. induction k as [|k IH]; intros [|a l]; cbn [Nat.add nth skipn]; try reflexivity; [destruct t; reflexivity|apply IH].
Qed.
Lemma qsum_rev l : (qsum (rev l) == qsum l)%Q.
Proof. induction l as [|a l IH]; [reflexivity|]. cbn [rev]. rewrite qsum_app, qsum_one, qsum_cons, IH. lra. Qed.

(** ** The representation *)
Definition prod (j : nat) (l : list Q) : Q := isum (fun t => nth t l 0 * nth (t + j) l 0)%Q (length l - j).

Record SeInv (s : series exact) (ml : nat) (l : list Q) : Prop := {
  v_rep : Rep (se_stats s) l;
  v_ml : max_lag s = ml;
  v_n : sampleno s = Z.of_nat (length l);
  v_ls : length (se_samples s) = ml + 1;
  v_lp : length (product s) = ml + 1;
  v_lf : length (firstsamples s) = ml + 1;
  v_s : forall j, j <= ml -> exists x, nth_error (se_samples s) j = Some x /\ fin_eq x (nth j (rev l) 0%Q);
  v_p : forall j, j <= ml -> exists x, nth_error (product s) j = Some x /\ fin_eq x (prod j l);
  v_f : forall j, j <= ml -> exists x, nth_error (firstsamples s) j = Some x /\ fin_eq x (qsum (firstn j l)) }.

Lemma reset_inv s ml : max_lag s = ml -> SeInv (se_reset exact s) ml [].
Proof.
  intros <-. assert (Z0 : forall j, j <= max_lag s -> forall q, (q == 0)%Q -> exists x, nth_error (repeat (Fin (inject_Z 0)) (max_lag s + 1)) j = Some x /\ fin_eq x q).
  { intros j Hj q Hq. exists (Fin (inject_Z 0)). rewrite nth_error_repeat by lia. split; [reflexivity|]. exists (inject_Z 0). split; [reflexivity|]. rewrite Hq. reflexivity. }
  split; cbn [se_reset se_stats max_lag sampleno se_samples product firstsamples]; rewrite ?repeat_length; auto.
  - apply Rep_new.
  - intros j Hj. apply Z0; auto. destruct j; reflexivity.
  - intros j Hj. apply Z0; auto. reflexivity.
  - intros j Hj. apply Z0; auto. destruct j; reflexivity.
Qed.

Lemma prod_snoc j l v : (prod j (l ++ [v]) == prod j l + (if j <=? length l then v * nth j (v :: rev l) 0 else 0))%Q.
Proof.
  unfold prod. rewrite app_length. cbn [length]. destruct (Nat.leb_spec j (length l)) as [C|C].
  - replace (length l + 1 - j) with (S (length l - j)) by lia. rewrite isum_S.
    rewrite (isum_ext (fun t => nth t (l ++ [v]) 0 * nth (t + j) (l ++ [v]) 0)%Q (fun t => nth t l 0 * nth (t + j) l 0)%Q).
    2: { intros t Ht. rewrite !app_nth1 by lia. reflexivity. }
    replace (length l - j + j) with (length l) by lia.
    assert (E : nth (length l - j) (l ++ [v]) 0%Q = nth j (v :: rev l) 0%Q).
    { destruct j as [|j]; [rewrite Nat.sub_0_r, app_nth2, Nat.sub_diag by lia; reflexivity|]. rewrite app_nth1 by lia. cbn [nth]. rewrite rev_nth by lia. reflexivity. }
    rewrite E. rewrite (app_nth2 l [v]) by lia. rewrite Nat.sub_diag. change (nth 0 [v] 0%Q) with v. lra.
  - replace (length l + 1 - j) with 0 by lia. replace (length l - j) with 0 by lia. unfold isum. cbn [seq map]. lra.
Qed.

Theorem se_add_inv s ml l v : SeInv s ml l -> (Z.of_nat (length l) + 1 < 2 ^ 32)%Z ->
  exists s', se_add exact s (Fin v) = Ok s' /\ SeInv s' ml (l ++ [v]).
Proof.
  intros [R Eml En Ls Lp Lf Hs Hp Hf] HL. unfold se_add. rewrite Eml.
  destruct (shift_spec exact ml (se_samples s)) as (sh & Esh & Lsh & Ksh). { change (ml < length (se_samples s)). lia. } rewrite Esh. cbn [bind].
  assert (Lsh' : @length (num exact) sh = ml + 1) by (rewrite Lsh; exact Ls).
  rewrite put_ok by lia. cbn [bind]. set (smp := upd sh 0 (Fin v : exact)). assert (Lsmp : length smp = ml + 1) by (unfold smp; rewrite length_upd; lia).
  assert (Hsmp : forall j, j <= ml -> exists x, nth_error smp j = Some x /\ fin_eq x (nth j (v :: rev l) 0)%Q).
  { intros j Hj. unfold smp. destruct j as [|j].
    - exists (Fin v). rewrite nth_error_upd_eq by lia. split; [reflexivity|]. exists v. split; reflexivity.
    - destruct (Hs j) as (x & Ex & Fx); [lia|]. exists x. rewrite nth_error_upd_neq by lia. rewrite Ksh. replace ((1 <=? S j) && (S j <=? ml)) with true by lia. split; [rewrite <- Ex; f_equal; lia|]. exact Fx. }
  rewrite En, Nat2Z.id.
  assert (Hp' : forall n j x y, n <= ml + 1 -> j <= ml -> nth_error smp j = Some x -> fin_eq x (nth j (v :: rev l) 0)%Q -> fin_eq y (prod j l) ->
     (j <? n) = (j <=? length l) -> fin_eq (if (0 <=? j) && (j <? 0 + n) then @nadd exact y (@nmul exact (Fin v) x) else y) (prod j (l ++ [v]))).
  { intros n j x y Hn Hj _ (a & -> & Ea) (b & -> & Eb) B. replace ((0 <=? j) && (j <? 0 + n)) with (j <=? length l) by lia. pose proof (prod_snoc j l v) as PS.
    destruct (j <=? length l); [exists (b + v * a)%Q|exists b]; (split; [reflexivity|]); rewrite PS, Eb; [rewrite Ea; reflexivity|lra]. }
  assert (Tail : exists (p f : list exact), (if (Z.of_nat (length l) <? Z.of_nat ml)%Z
      then let! p := add_products exact (seq 0 (length l + 1)) (Fin v) smp (product s) in
           let! fs := add_first exact (seq (length l + 1) (ml - length l)) (Fin v) (firstsamples s) in Ok (p, fs)
      else let! p := add_products exact (seq 0 (ml + 1)) (Fin v) smp (product s) in Ok (p, firstsamples s)) = Ok (p, f) /\
      length p = ml + 1 /\ length f = ml + 1 /\
      (forall j, j <= ml -> exists x, nth_error p j = Some x /\ fin_eq x (prod j (l ++ [v]))) /\
      (forall j, j <= ml -> exists x, nth_error f j = Some x /\ fin_eq x (qsum (firstn j (l ++ [v]))))).
  { destruct (Z.ltb_spec (Z.of_nat (length l)) (Z.of_nat ml)) as [C|C].
    - destruct (add_products_spec exact (Fin v) smp (length l + 1) 0 (product s)) as (p & Ep & Lp' & Kp); [change (0 + (length l + 1) <= length (product s)); lia|lia|].
      destruct (add_first_spec exact (Fin v) (ml - length l) (length l + 1) (firstsamples s)) as (f & Ef & Lf' & Kf); [change (length l + 1 + (ml - length l) <= length (firstsamples s)); lia|].
      exists p, f. rewrite Ep. cbn [bind]. rewrite Ef. cbn [bind]. split; [reflexivity|]. split; [etransitivity; [exact Lp'|exact Lp]|]. split; [etransitivity; [exact Lf'|exact Lf]|]. split.
      + intros j Hj. destruct (Hsmp j Hj) as (x & Ex & Fx), (Hp j Hj) as (y & Ey & Fy). eexists. split; [exact (Kp j x y Ex Ey)|]. apply Hp'; auto; lia.
      + intros j Hj. destruct (Hf j Hj) as (y & Ey & (b & -> & Eb)). eexists. split; [exact (Kf j _ Ey)|]. rewrite firstn_app.
        destruct (Nat.leb_spec (length l + 1) j) as [D|D].
        * replace (true && (j <? length l + 1 + (ml - length l))) with true by lia. exists (b + v)%Q. split; [reflexivity|]. rewrite Eb, qsum_app. rewrite (firstn_all2 [v]) by (cbn; lia). rewrite qsum_one. lra.
        * cbn [andb]. exists b. split; [reflexivity|]. rewrite Eb, qsum_app. replace (j - length l) with 0 by lia. cbn [firstn]. rewrite qsum_nil. lra.
    - destruct (add_products_spec exact (Fin v) smp (ml + 1) 0 (product s)) as (p & Ep & Lp' & Kp); [change (0 + (ml + 1) <= length (product s)); lia|lia|].
      exists p, (firstsamples s). rewrite Ep. cbn [bind]. split; [reflexivity|]. split; [etransitivity; [exact Lp'|exact Lp]|]. split; [exact Lf|]. split.
      + intros j Hj. destruct (Hsmp j Hj) as (x & Ex & Fx), (Hp j Hj) as (y & Ey & Fy). eexists. split; [exact (Kp j x y Ex Ey)|]. apply Hp'; auto; lia.
      + intros j Hj. destruct (Hf j Hj) as (y & Ey & (b & -> & Eb)). exists (Fin b). split; [exact Ey|]. exists b. split; [reflexivity|]. rewrite Eb, firstn_app. replace (j - length l) with 0 by lia. cbn [firstn]. rewrite app_nil_r. reflexivity. }
  destruct Tail as (p & f & Et & Lp' & Lf' & Kp & Kf). eexists. split.
  - match goal with |- context [bind ?c _] => replace c with (Ok (p, f)) by (symmetry; exact Et) end. cbn [bind]. reflexivity.
  - split; cbn [se_stats max_lag sampleno se_samples product firstsamples]; auto.
    + now apply Rep_add.
    + rewrite app_length. cbn [length]. rewrite Z.mod_small by lia. lia.
    + intros j Hj. rewrite rev_app_distr. cbn [rev app]. auto.
Qed.

Theorem se_run_inv ops : forall s ml l, SeInv s ml l -> (Z.of_nat (length l + adds ops) < 2 ^ 32)%Z ->
  exists s', se_run exact s (map to_op ops) = Ok s' /\ SeInv s' ml (fold_left held_step ops l).
Proof.
  induction ops as [|o ops IH]; intros s ml l I H; [exists s; auto|]. unfold adds in H. destruct o as [v|]; cbn [map to_op se_run fold_left held_step filter length] in *.
  - destruct (se_add_inv s ml l v I) as (s1 & E1 & I1); [lia|]. rewrite E1. cbn [bind]. apply IH; auto. rewrite app_length. cbn [length]. unfold adds. lia.
  - apply IH; [apply reset_inv, I|]. cbn [length]. unfold adds. lia.
Qed.

(** ** The formula *)
Lemma sum_samples_spec (smp : list exact) l n : (forall j, j < n -> exists x, nth_error smp j = Some x /\ fin_eq x (nth j (rev l) 0)%Q) -> forall i acc a, i <= n ->
  fin_eq acc a -> exists x, sum_samples exact (seq i (n - i)) smp acc = Ok x /\ fin_eq x (a + (isum (fun t => nth t (rev l) 0) n - isum (fun t => nth t (rev l) 0) i))%Q.
Proof.
  intros H i acc a Hi. remember (n - i) as k eqn:Ek. revert i acc a Hi Ek. induction k as [|k IH]; intros i acc a Hi Ek Ha; cbn [seq sum_samples].
  - replace i with n by lia. exists acc. split; [reflexivity|]. destruct Ha as (q & -> & E). exists q. split; [reflexivity|]. rewrite E. lra.
  - destruct (H i) as (x & Ex & (q & -> & Eq)); [lia|]. rewrite (get_Some _ _ _ Ex). cbn [bind]. destruct Ha as (p & -> & Ep).
    destruct (IH (S i) (Fin (p + q)) (a + nth i (rev l) 0)%Q) as (y & Ey & Fy); [lia|lia|exists (p + q)%Q; split; [reflexivity|rewrite Ep, Eq; reflexivity]|].
    exists y. split; [exact Ey|]. destruct Fy as (r & -> & Er). exists r. split; [reflexivity|]. rewrite Er, isum_S. lra.
Qed.

Lemma acov_identity l k : k < length l ->
  let m := qmean l in
  (isum (fun t => (nth t l 0 - m) * (nth (t + k) l 0 - m)) (length l - k) ==
   prod k l - m * (qsum l + qsum l - qsum (firstn k (rev l)) - qsum (firstn k l)) + m * m * inject_Z (Z.of_nat (length l - k)))%Q.
Proof.
  intros Hk m. unfold prod. set (n := length l - k).
  rewrite (isum_ext _ (fun t => (nth t l 0 * nth (t + k) l 0 + ((- m) * nth t l 0 + (- m) * nth (t + k) l 0)) + m * m)%Q) by (intros; ring).
  rewrite !isum_add, !isum_scale, isum_const, isum_firstn, isum_skipn.
  rewrite (firstn_all2 (skipn k l)) by (rewrite skipn_length; lia).
  assert (E1 : (qsum l == qsum (firstn n l) + qsum (firstn k (rev l)))%Q).
  { rewrite firstn_rev, qsum_rev. fold n. rewrite <- qsum_app, firstn_skipn. reflexivity. }
  assert (E2 : (qsum l == qsum (firstn k l) + qsum (skipn k l))%Q) by (rewrite <- qsum_app, firstn_skipn; reflexivity).
  assert (E3 : (qsum l + qsum l - qsum (firstn k (rev l)) - qsum (firstn k l) == qsum (firstn n l) + qsum (skipn k l))%Q) by lra. rewrite E3. ring.
Qed.

Theorem autocovariance_ok s ml l k : SeInv s ml l -> (Z.of_nat (length l) < 2 ^ 32)%Z -> k <= ml -> k < length l ->
  exists x, autocovariance exact s k = Ok x /\ fin_eq x (acov l k).
Proof.
  intros [R Eml En Ls Lp Lf Hs Hp Hf] HL Hk HN. unfold autocovariance. rewrite Eml. replace (k <=? ml) with true by lia. cbn [invariant bind].
  destruct (sum_samples_spec (se_samples s) l k (fun j Hj => Hs j ltac:(lia)) 0 (Fin (inject_Z 0)) 0%Q ltac:(lia)) as (la & Ela & (lq & -> & Elq)). { exists (inject_Z 0). split; reflexivity. }
  rewrite Nat.sub_0_r in Ela. change (of_int 0 : exact) with (Fin (inject_Z 0)). rewrite Ela. cbn [bind].
  destruct (Hp k Hk) as (p & Gp & (pq & -> & Epq)). rewrite (get_Some _ _ _ Gp). cbn [bind]. destruct (Hf k Hk) as (f & Gf & (fq & -> & Efq)). rewrite (get_Some _ _ _ Gf). cbn [bind].
  assert (N : l <> []) by (destruct l; [cbn in HN; lia|discriminate]).
  destruct (Rep_mean _ _ R) as (mq & Em & Emq); [lia|exact N|]. rewrite Em. destruct R as (_ & (sq & Es & Esq) & _). rewrite Es.
  eexists. split; [reflexivity|].
  assert (En' : ~ (inject_Z (sampleno s) == 0)%Q). { rewrite En. pose proof (qlen_pos l N) as P. unfold qlen in P. intros F. rewrite F in P. lra. }
  unfold fin_eq. cbn [exact nadd nsub nmul ndiv of_int xadd xsub xmul xopp]. 
  change (xmul (Fin (inject_Z 1)) (Fin (inject_Z (sampleno s)))) with (Fin (inject_Z 1 * inject_Z (sampleno s))).
  cbn [xdiv xadd xopp]. replace (Qeq_bool (inject_Z 1 * inject_Z (sampleno s)) 0) with false. 2: { symmetry. apply Qeq_bool_false. change (inject_Z 1) with 1%Q. rewrite Qmult_1_l. exact En'. }
  replace (Qeq_bool (inject_Z (sampleno s)) 0) with false by (symmetry; apply Qeq_bool_false; exact En').
  cbn [xadd]. eexists. split; [reflexivity|].
  pose proof (acov_identity l k HN) as AI. cbv zeta in AI. unfold acov. cbv zeta. fold (isum (fun t => (nth t l 0 - qmean l) * (nth (t + k) l 0 - qmean l))%Q (length l - k)). rewrite AI.
  assert (El : (lq == qsum (firstn k (rev l)))%Q). { rewrite Elq, isum_firstn. unfold isum. cbn [seq map]. rewrite qsum_nil. lra. }
  replace ((sampleno s - Z.of_nat k - 1) mod 2 ^ 32)%Z with (Z.of_nat (length l - k) - 1)%Z by (rewrite En, Z.mod_small; lia).
  rewrite Epq, Emq, Esq, Efq, El. unfold qlen. rewrite <- En. unfold Z.sub. rewrite inject_Z_plus. change (inject_Z 1) with 1%Q. change (inject_Z (-(1))) with (-(1))%Q. field. exact En'.
Qed.

(** ** Consequences *)
Lemma acov_0 l : (acov l 0 == qvar l)%Q.
Proof.
  unfold acov, qvar. cbv zeta. apply Qdiv_comp; [|reflexivity]. rewrite Nat.sub_0_r. set (m := qmean l). clearbody m.
  fold (isum (fun t => (nth t l 0 - m) * (nth (t + 0) l 0 - m))%Q (length l)).
  rewrite (isum_ext _ (fun t => nth t (map (fun x => (x - m) * (x - m)) l) 0)%Q).
  - rewrite isum_firstn, firstn_all2 by (rewrite map_length; lia). reflexivity.
  - intros t Ht. rewrite Nat.add_0_r. rewrite (nth_indep (map (fun x => (x - m) * (x - m))%Q l) 0%Q ((fun x => (x - m) * (x - m))%Q 0%Q)) by (rewrite map_length; lia). rewrite (map_nth (fun x => (x - m) * (x - m))%Q l 0%Q t). reflexivity.
Qed.
Lemma isum_shift f n k : (isum (fun t => f (t + k)%nat) n + isum f k == isum f (n + k)%nat)%Q.
Proof. induction n as [|n IH]; [cbn [Nat.add]; unfold isum at 1; cbn [seq map]; rewrite qsum_nil; lra|]. cbn [Nat.add]. rewrite !isum_S, <- IH. ring. Qed.
Lemma isum_nonneg f n : (forall t, (t < n)%nat -> 0 <= f t)%Q -> (0 <= isum f n)%Q.
Proof. intros H. pose proof (isum_le (fun _ => 0%Q) f n H) as L. rewrite isum_const in L. lra. Qed.
Lemma isum_mono f n m : n <= m -> (forall t, 0 <= f t)%Q -> (isum f n <= isum f m)%Q.
Proof. intros H P. induction H as [|m H IH]; [lra|]. rewrite isum_S. specialize (P m). lra. Qed.
Lemma acov_bound l k : k < length l -> (- acov l 0 <= acov l k <= acov l 0)%Q.
Proof.
  intros H. assert (N : l <> []) by (destruct l; [cbn in H; lia|discriminate]). pose proof (qlen_pos l N) as P. unfold acov. cbv zeta. set (m := qmean l). clearbody m. rewrite Nat.sub_0_r.
  set (a := fun t => (nth t l 0 - m)%Q). set (A := isum (fun t => a t * a (t + k)%nat)%Q (length l - k)%nat). set (B := isum (fun t => a t * a (t + 0)%nat)%Q (length l)).
  change (- (B / qlen l) <= A / qlen l <= B / qlen l)%Q.
  assert (EB : (B == isum (fun t => a t * a t) (length l))%Q) by (unfold B; apply isum_ext; intros; rewrite Nat.add_0_r; reflexivity).
  assert (S1 : (isum (fun t => a t * a t) (length l - k)%nat <= B)%Q). { rewrite EB. apply isum_mono; [lia|]. intros t. destruct (Qlt_le_dec (a t) 0); nra. }
  assert (S2 : (isum (fun t => a (t + k)%nat * a (t + k)%nat) (length l - k)%nat <= B)%Q).
  { rewrite EB. pose proof (isum_shift (fun t => a t * a t)%Q (length l - k) k) as SH. replace (length l - k + k) with (length l) in SH by lia. rewrite <- SH.
    assert (0 <= isum (fun t => a t * a t) k)%Q. { apply isum_nonneg. intros t _. destruct (Qlt_le_dec (a t) 0); nra. } cbv beta in *. lra. }
  assert (U : (2 * A <= 2 * B)%Q). { unfold A. rewrite <- isum_scale. eapply Qle_trans; [apply (isum_le _ (fun t => a t * a t + a (t + k)%nat * a (t + k)%nat)%Q)|rewrite isum_add; lra]. intros t _. assert (0 <= (a t - a (t + k)%nat) * (a t - a (t + k)%nat))%Q by (destruct (Qlt_le_dec (a t - a (t + k)%nat) 0); nra). lra. }
  assert (L : (2 * (-(1) * A) <= 2 * B)%Q). { unfold A. rewrite <- !isum_scale. eapply Qle_trans; [apply (isum_le _ (fun t => a t * a t + a (t + k)%nat * a (t + k)%nat)%Q)|rewrite isum_add; lra]. intros t _. assert (0 <= (a t + a (t + k)%nat) * (a t + a (t + k)%nat))%Q by (destruct (Qlt_le_dec (a t + a (t + k)%nat) 0); nra). lra. }
  split.
  - assert (E : (- (B / qlen l) == (- B) / qlen l)%Q) by (field; lra). rewrite E. apply Qle_shift_div_l; [exact P|]. assert (E2 : (- B / qlen l * qlen l == - B)%Q) by (field; lra). rewrite E2. lra.
  - apply Qle_shift_div_l; [exact P|]. assert (E2 : (A / qlen l * qlen l == A)%Q) by (field; lra). rewrite E2. lra.
Qed.
