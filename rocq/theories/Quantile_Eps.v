(** StatsQuantile: the sizes chosen by the constructor keep the rank error within
    the requested fraction of the number of samples. *)
From Coq Require Import List Arith ZArith QArith Qround NArith Lia Bool Permutation Sorted ZifyBool ZifyNat ZifyN Lqa.
From Verif Require Import Common CommonFacts ListFacts Arith Quantile_Model Quantile_Spec Quantile_Facts Quantile_Merge Quantile_Bin Quantile_Collapse Quantile_Proofs Quantile_Query Quantile_Error Quantile_History.
Import ListNotations.
Local Open Scope nat_scope.

(** ** Binomial coefficients *)
Lemma fact_from_fact n : forall i acc, fact_from n (Z.of_nat (S i)) (acc * Z.of_nat (fact i))%Z = (acc * Z.of_nat (fact (i + n)))%Z.
Proof.
  induction n as [|n IH]; intros i acc; cbn [fact_from]; [now rewrite Nat.add_0_r|].
  replace (acc * Z.of_nat (fact i) * Z.of_nat (S i))%Z with (acc * Z.of_nat (fact (S i)))%Z by (cbn [fact]; lia).
  replace (Z.of_nat (S i) + 1)%Z with (Z.of_nat (S (S i))) by lia. rewrite IH. do 3 f_equal. lia.
Qed.
Lemma factZ_fact n : factZ (Z.of_nat n) = Z.of_nat (fact n).
Proof.
  unfold factZ. destruct n as [|n]; [reflexivity|]. replace (Z.to_nat (Z.of_nat (S n) - 1)) with n by lia.
  pose proof (fact_from_fact n 1 1%Z) as H. cbn [fact Nat.mul Nat.add Z.of_nat Pos.of_succ_nat Pos.succ] in H. rewrite !Z.mul_1_l in H. exact H.
Qed.
Lemma wt_fact b l : wt (S b) l * (fact l * fact b) = fact (b + l).
Proof.
  revert l. induction b as [|b IH]; intros l. { rewrite wt_1. cbn [fact Nat.add]. lia. }
  induction l as [|l IHl]. { rewrite wt_S_0, Nat.add_0_r. change (fact 0) with 1. lia. }
  rewrite wt_S_S. specialize (IH (S l)). replace (S b + S l) with (S (S b + l)) by lia. cbn [fact] in *.
  replace (b + S l) with (S b + l) in IH by lia. cbn [fact Nat.add] in *. nia.
Qed.
Lemma chooseZ_wt b l : chooseZ (Z.of_nat (b + l)) (Z.of_nat l) = Z.of_nat (wt (S b) l).
Proof.
  unfold chooseZ. replace (Z.of_nat (b + l) - Z.of_nat l)%Z with (Z.of_nat b) by lia. rewrite !factZ_fact, <- wt_fact.
  rewrite Nat2Z.inj_mul, Nat2Z.inj_mul, (Z.mul_comm (Z.of_nat (fact b))). apply Z.div_mul. pose proof (lt_O_fact l). pose proof (lt_O_fact b). nia.
Qed.

(** error_weight with h = g + 3 *)
Lemma error_weight_wt b g : 1 <= b -> error_weight (Z.of_nat b) (Z.of_nat (g + 3)) =
  ((Z.of_nat g + 1) * Z.of_nat (wt b (g + 2)) - Z.of_nat (wt (S b) g) + Z.of_nat (wt b (g + 1)))%Z.
Proof.
  intros Hb. destruct b as [|b]; [lia|]. unfold error_weight.
  replace (Z.of_nat (S b) + Z.of_nat (g + 3) - 2)%Z with (Z.of_nat (b + (g + 2))) by lia. replace (Z.of_nat (g + 3) - 1)%Z with (Z.of_nat (g + 2)) by lia. rewrite chooseZ_wt.
  replace (Z.of_nat (S b) + Z.of_nat (g + 3) - 3)%Z with (Z.of_nat (S b + g)) by lia. replace (Z.of_nat (g + 3) - 3)%Z with (Z.of_nat g) by lia. rewrite chooseZ_wt.
  replace (Z.of_nat (S b + g)) with (Z.of_nat (b + (g + 1))) by lia. replace (Z.of_nat (g + 3) - 2)%Z with (Z.of_nat (g + 1)) by lia. rewrite chooseZ_wt. lia.
Qed.

Lemma error_weight_bound b g : 1 <= b ->
  (Z.of_nat b * error_weight (Z.of_nat b) (Z.of_nat (g + 3)) >= ((Z.of_nat g + 1) * (Z.of_nat b - 1) + 1) * Z.of_nat (wt b (g + 2)))%Z.
Proof.
  intros Hb. rewrite error_weight_wt by auto. pose proof (wt_absorb b g) as A. pose proof (wt_mono_l b (g + 1) (g + 2) ltac:(lia)) as M. replace (S g) with (g + 1) in A by lia.
  set (W := wt b (g + 2)) in *. set (U := wt b (g + 1)) in *. set (T := wt (S b) g) in *.
  assert (A' : (Z.of_nat b * Z.of_nat T = (Z.of_nat g + 1) * Z.of_nat U)%Z) by lia.
  assert (G : (Z.of_nat g * Z.of_nat W + (Z.of_nat b - Z.of_nat g - 1) * Z.of_nat U >= 0)%Z).
  { destruct (Z.le_gt_cases (Z.of_nat g + 1) (Z.of_nat b)); nia. }
  nia.
Qed.

(** ** The error hidden in a state *)
Lemma mono_levels F L : mono F -> (match F with [] => True | x :: _ => fst x <= L end) -> forall b, In b F -> fst b <= L.
Proof.
  intros M H b Hb. apply In_nth_error in Hb. destruct Hb as (j & E). revert b E. induction j as [|j IH]; intros b E.
  - destruct F; [discriminate|]. injection E as <-. exact H.
  - destruct (nth_error F j) as [a|] eqn:Ea; [|apply nth_error_None in Ea; apply nth_error_lt in E; lia]. specialize (IH a eq_refl). specialize (M j a b Ea E). lia.
Qed.

Lemma hidF_bound b L F : length F < b -> (forall x, In x F -> fst x <= L) -> forall n, b <= n ->
  n * hidF b F <= L * (n - 1) * wsumL (weigh b F).
Proof.
  revert b. induction F as [|x F IH]; intros b LF HL n Hn; [cbn [hidF]; lia|]. cbn [hidF weigh wsumL length] in *.
  specialize (IH (b - 1) ltac:(lia) (fun y Hy => HL y (or_intror Hy)) n ltac:(lia)). cbn [wsumL fold_right map fst snd].
  pose proof (hid_ratio b (fst x) ltac:(lia)) as R. pose proof (HL x (or_introl eq_refl)) as Hx.
  assert (K : n * hid b (fst x) <= L * (n - 1) * wt b (fst x)).
  { apply (Nat.mul_le_mono_pos_l _ _ b); [lia|]. replace (b * (n * hid b (fst x))) with (n * (b * hid b (fst x))) by lia. rewrite R.
    assert (n * (b - 1) <= (n - 1) * b) by nia. assert (J : fst x * (n * (b - 1)) <= L * ((n - 1) * b)) by (apply Nat.mul_le_mono; auto). apply (Nat.mul_le_mono_r _ _ (wt b (fst x))) in J. lia. }
  unfold wsumL in *. cbn [map fold_right fst] in *. nia.
Qed.
Lemma hidF_zero b F : (forall x, In x F -> fst x = 0) -> hidF b F = 0.
Proof. revert b. induction F as [|x F IH]; intros b H; [reflexivity|]. cbn [hidF]. rewrite (H x (or_introl eq_refl)), hid_0, IH; auto. intros y Hy. apply H. now right. Qed.

(** What the constructor guarantees about its sizes. *)
Definition sized (eps : Q) (nbound : Z) (nb bs : nat) : Prop :=
  (nbound <= Z.of_nat (bs * wt nb 1))%Z \/
  exists g, (nbound <= Z.of_nat (bs * wt nb (g + 2)))%Z /\ (inject_Z (error_weight (Z.of_nat nb) (Z.of_nat (g + 3))) <= 2 * eps * inject_Z nbound)%Q.

Lemma fcount_first nb bs x F P : 1 <= length P -> fcount nb bs (x :: F) P > bs * wt nb (fst x).
Proof. intros. unfold fcount, wsumL. cbn [weigh map fold_right fst]. nia. Qed.

Lemma state_error eps nbound nb bs F P X : (0 <= eps)%Q -> 2 <= nb -> 1 <= bs -> sized eps nbound nb bs -> length F < nb -> mono F -> P <> [] \/ F = [] ->
  fcount nb bs F P = X -> (Z.of_nat X <= nbound)%Z ->
  hidF nb F = 0 \/ (inject_Z (Z.of_nat (hidF nb F) + 1) <= 2 * eps * inject_Z (Z.of_nat X))%Q.
Proof.
  intros He Hnb Hbs Sz LF M NP EX HX. destruct F as [|x F0]; [now left|]. set (F := x :: F0) in *. destruct NP as [NP|NP]; [|discriminate].
  assert (LP : 1 <= length P) by (destruct P; simpl; [congruence|lia]). pose proof (fcount_first nb bs x F0 P LP) as Hf. fold F in Hf. rewrite EX in Hf.
  destruct (fst x) as [|l0] eqn:El.
  { left. apply hidF_zero. intros y Hy. pose proof (mono_levels F 0 M ltac:(unfold F; lia) y Hy). lia. }
  destruct Sz as [S1|(g & S1 & S2)].
  { exfalso. assert (wt nb 1 <= wt nb (S l0)) by (apply wt_mono_l; lia). nia. }
  right. assert (Hl : S l0 <= g + 1).
  { destruct (Nat.le_gt_cases (S l0) (g + 1)); auto. exfalso. assert (wt nb (g + 2) <= wt nb (S l0)) by (apply wt_mono_l; lia). nia. }
  assert (HL : forall y, In y F -> fst y <= g + 1) by (apply mono_levels; auto; unfold F; lia).
  pose proof (hidF_bound nb (g + 1) F LF HL nb (le_n _)) as HB. set (H := hidF nb F) in *. set (Lw := wsumL (weigh nb F)) in *. set (W := wt nb (g + 2)) in *.
  assert (Lb : nb <= Lw).
  { unfold Lw, F, wsumL. cbn [weigh map fold_right fst]. rewrite El. assert (wt nb 1 <= wt nb (S l0)) by (apply wt_mono_l; lia).
    assert (wt nb 1 = nb) by (clear; induction nb as [|n IH]; [reflexivity|]; rewrite wt_S_S, wt_S_0; lia). lia. }
  assert (Wp : 0 < W) by (unfold W; destruct nb; [lia|apply wt_pos]).
  pose proof (error_weight_bound nb g ltac:(lia)) as EB. fold W in EB. set (v := error_weight (Z.of_nat nb) (Z.of_nat (g + 3))) in *.
  assert (B1 : ((Z.of_nat H + 1) * Z.of_nat W <= v * Z.of_nat Lw)%Z).
  { apply (Z.mul_le_mono_pos_l _ _ (Z.of_nat nb)); [lia|].
    assert (HBz : (Z.of_nat nb * Z.of_nat H <= (Z.of_nat g + 1) * (Z.of_nat nb - 1) * Z.of_nat Lw)%Z) by (replace (Z.of_nat nb - 1)%Z with (Z.of_nat (nb - 1)) by lia; lia).
    apply Z.le_trans with ((Z.of_nat g + 1) * (Z.of_nat nb - 1) * Z.of_nat Lw * Z.of_nat W + Z.of_nat nb * Z.of_nat W)%Z; [nia|].
    apply Z.le_trans with (((Z.of_nat g + 1) * (Z.of_nat nb - 1) + 1) * Z.of_nat W * Z.of_nat Lw)%Z; [|nia].
    assert (Z.of_nat nb * Z.of_nat W <= Z.of_nat Lw * Z.of_nat W)%Z by nia. lia. }
  assert (B2 : (bs * Lw <= X)) by (rewrite <- EX; unfold fcount; fold Lw; lia).
  (* now over Q *)
  assert (Qw : (0 < inject_Z (Z.of_nat W))%Q) by (unfold Qlt; simpl; lia).
  assert (C1 : (inject_Z (Z.of_nat H + 1) * inject_Z (Z.of_nat W) <= inject_Z v * inject_Z (Z.of_nat Lw))%Q) by (rewrite <- !inject_Z_mult, <- Zle_Qle; exact B1).
  assert (C2 : (inject_Z nbound <= inject_Z (Z.of_nat bs) * inject_Z (Z.of_nat W))%Q) by (rewrite <- inject_Z_mult, <- Zle_Qle; lia).
  assert (C3 : (inject_Z (Z.of_nat bs) * inject_Z (Z.of_nat Lw) <= inject_Z (Z.of_nat X))%Q) by (rewrite <- inject_Z_mult, <- Zle_Qle; lia).
  assert (C4 : (0 <= inject_Z (Z.of_nat Lw))%Q) by (unfold Qle; simpl; lia).
  set (qH := inject_Z (Z.of_nat H + 1)) in *. set (qW := inject_Z (Z.of_nat W)) in *. set (qv := inject_Z v) in *. set (qL := inject_Z (Z.of_nat Lw)) in *.
  set (qB := inject_Z (Z.of_nat bs)) in *. set (qN := inject_Z nbound) in *. set (qX := inject_Z (Z.of_nat X)) in *. clearbody qH qW qv qL qB qN qX.
  apply (Qmult_le_r _ _ qW Qw).
  assert (D1 : (qv * qL <= 2 * eps * qN * qL)%Q) by (apply Qmult_le_compat_r; auto).
  assert (D2 : (qN * (eps * qL) <= (qB * qW) * (eps * qL))%Q) by (apply Qmult_le_compat_r; auto; apply Qmult_le_0_compat; auto).
  assert (D3 : ((qB * qL) * (eps * qW) <= qX * (eps * qW))%Q) by (apply Qmult_le_compat_r; auto; apply Qmult_le_0_compat; auto; lra).
  lra.
Qed.

(** ** The constructor *)
Lemma find_h_spec n b limit : forall h, let r := find_h n b h limit in
  (r = h - 1 \/ (h <= r /\ (inject_Z (error_weight b r) <= limit)%Q) \/ (r = h + Z.of_nat n /\ (n = O \/ (inject_Z (error_weight b (r - 1)) <= limit)%Q)))%Z.
Proof.
  induction n as [|n IH]; intros h; cbn [find_h]; cbv zeta. { right; right. split; [lia|now left]. }
  destruct (Qle_bool (inject_Z (error_weight b h)) limit) eqn:E; cbn [negb]; [|now left]. apply Qle_bool_iff in E.
  specialize (IH (h + 1)%Z). cbv zeta in IH. set (r := find_h n b (h + 1) limit) in *. destruct IH as [H|[[H1 H2]|[H1 H2]]].
  - right; left. replace r with h by lia. split; [lia|exact E].
  - right; left. split; [lia|exact H2].
  - right; right. split; [lia|]. right. destruct H2 as [->|H2]; [|exact H2]. replace (r - 1)%Z with h by lia. exact E.
Qed.

Lemma find_bk_spec n eps nbound : forall b best r, find_bk n b eps nbound best = r -> r = best \/
  exists b' h k, h = find_h 37 b' 3 (2 * eps * inject_Z nbound) /\ k = Qceiling (inject_Z nbound / inject_Z (chooseZ (b' + h - 2) (h - 1)))
    /\ (b <= b' < b + Z.of_nat n)%Z /\ r = Some (b', k) /\ (b' * k < 10 ^ 9)%Z.
Proof.
  induction n as [|n IH]; intros b best r E; cbn [find_bk] in E; [now left|]. cbv zeta in E. specialize (IH _ _ _ E). clear E. destruct IH as [H|(b' & h & k & H1 & H2 & H3 & H4)].
  - set (h := find_h 37 b 3 (2 * eps * inject_Z nbound)) in *. set (k := Qceiling (inject_Z nbound / inject_Z (chooseZ (b + h - 2) (h - 1)))) in *.
    destruct (b * k <? 10 ^ 9)%Z eqn:Eb; [|now left].
    assert (K : r = best \/ r = Some (b, k)) by (destruct best as [[bb bk]|]; [destruct (b * k <? bb * bk)%Z|]; auto).
    destruct K as [K|K]; [now left|]. right. exists b, h, k. split; [reflexivity|]. split; [reflexivity|]. split; [lia|]. split; [exact K|]. now apply Z.ltb_lt.
  - right. exists b', h, k. split; [exact H1|]. split; [exact H2|]. split; [lia|exact H4].
Qed.

Strategy 1000 [find_bk find_h error_weight chooseZ].
Theorem new_sized eps n lazy s : q_new eps n lazy = Ok s -> exists nb bs, q_init (Z.max 100 n) lazy nb bs = Ok s /\ 2 <= nb < 30 /\ 10 <= bs /\ (Z.of_nat bs < 2 ^ 31)%Z /\
  ((2 * eps * inject_Z (Z.max 100 n) < inject_Z (error_weight (Z.of_nat nb) 39))%Q -> sized eps (Z.max 100 n) nb bs).
Proof.
  intros E. unfold q_new in E. replace (if n <? 100 then 100 else n)%Z with (Z.max 100 n) in E by (destruct (Z.ltb_spec n 100); lia). set (N := Z.max 100 n) in *.
  assert (HN : (100 <= N)%Z) by lia. clearbody N.
  destruct (negb (Qle_bool (1 # 5) eps)); [|discriminate]. destruct (1 <? n)%Z; [|discriminate]. cbn [invariant bind] in E.
  destruct (find_bk 28 2 eps N None) as [[b k]|] eqn:F; [|discriminate]. destruct (find_bk_spec _ _ _ _ _ _ F) as [H|(b' & h & k' & Eh & Ek & Hb & H & Hs)]; [discriminate|].
  injection H as -> <-. clear F.
  pose proof (find_h_spec 37 b' (2 * eps * inject_Z N) 3) as Fh. cbv zeta in Fh. rewrite <- Eh in Fh. clear Eh.
  destruct ((0 <? b') && (0 <? k))%Z eqn:P; [|discriminate]. cbn [invariant bind] in E.
  exists (Z.to_nat b'), (Z.to_nat (if k <? 10 then 10 else k)%Z). split; [exact E|]. split; [lia|]. split; [destruct (Z.ltb_spec k 10); lia|]. split; [destruct (Z.ltb_spec k 10); nia|]. intros Lim.
  rewrite Z2Nat.id in Lim by lia. set (b := Z.to_nat b') in *. assert (Eb : b' = Z.of_nat b) by lia. rewrite Eb in *. clearbody b. clear Eb b'.
  assert (Cov : forall l, 0 < l -> (h - 1 = Z.of_nat l)%Z -> (N <= Z.of_nat (Z.to_nat (if k <? 10 then 10 else k)%Z * wt b l))%Z).
  { intros l Hl Eh. destruct b as [|b]; [lia|]. replace (Z.of_nat (S b) + h - 2)%Z with (Z.of_nat (b + l)) in Ek by lia. rewrite Eh, chooseZ_wt in Ek.
    pose proof (wt_pos b l) as Wp. set (w := wt (S b) l) in *. clearbody w. pose proof (Qle_ceiling (inject_Z N / inject_Z (Z.of_nat (w)))) as C. rewrite <- Ek in C.
    assert (Qw : (0 < inject_Z (Z.of_nat (w)))%Q) by (unfold Qlt; simpl; lia).
    apply (Qmult_le_r _ _ _ Qw) in C. assert (Q1 : (inject_Z N / inject_Z (Z.of_nat (w)) * inject_Z (Z.of_nat (w)) == inject_Z N)%Q) by (field; lra).
    rewrite Q1, <- inject_Z_mult, <- Zle_Qle in C. destruct (k <? 10)%Z eqn:K10; nia. }
  destruct Fh as [H|[[H1 H2]|[H1 H2]]].
  - left. apply Cov; lia.
  - right. exists (Z.to_nat (h - 3)). split; [apply Cov; lia|]. replace (Z.of_nat (Z.to_nat (h - 3) + 3)) with h by lia. exact H2.
  - exfalso. destruct H2 as [H2|H2]; [discriminate|]. replace (h - 1)%Z with 39%Z in H2 by lia. lra.
Qed.

(** ** Histories of objects made by the constructor *)
Lemma uniform_shape nbound nb bs h : uniform nbound nb bs h -> hnb h = nb /\ hbs h = bs /\ hbound h = nbound.
Proof. unfold hnb, hbs, hbound. induction h; cbn [uniform shape fst snd]; intros; tauto. Qed.
Lemma within_len nbound h : within nbound h -> (Z.of_nat (length (samples h)) <= nbound)%Z.
Proof. destruct h; cbn [within]; tauto. Qed.

Definition good (eps : Q) (nbound : Z) (nb bs : nat) (h : hist) (E : nat) : Prop :=
  uniform nbound nb bs h -> within nbound h -> (inject_Z (Z.of_nat E) <= 2 * eps * inject_Z (Z.of_nat (carried h)))%Q.

Lemma Inv_state_error eps nbound s F P X E : (0 <= eps)%Q -> sized eps nbound (nbuffers s) (buffer_size s) -> Inv s F P X E -> (Z.of_nat (length X) <= nbound)%Z ->
  (inject_Z (Z.of_nat (hidF (nbuffers s) F) + delta (collapse_even_low s)) <= 2 * eps * inject_Z (Z.of_nat (length X)))%Q.
Proof.
  intros He Sz I HX. pose proof I as [R C K D Er]. assert (Sh := Rep_shape _ _ _ R). assert (HN := sh_nb _ Sh). assert (HB := sh_bs _ Sh).
  assert (Mo : mono F). { destruct R as [[R _]|(_ & -> & _)]; [apply (rf_mono _ _ _ R)|]. intros i a b H. destruct i; discriminate. }
  assert (NP : P <> [] \/ F = []). { destruct R as [[_ N]|(_ & -> & _)]; auto. }
  destruct (Rep_len _ _ _ R) as [_ LF].
  assert (Hd : (0 <= delta (collapse_even_low s) <= 1)%Z) by (unfold delta; destruct (collapse_even_low s); lia).
  assert (HQ : (0 <= 2 * eps * inject_Z (Z.of_nat (length X)))%Q). { assert (0 <= inject_Z (Z.of_nat (length X)))%Q by (unfold Qle; simpl; lia). assert (0 <= 2 * eps)%Q by lra. now apply Qmult_le_0_compat. }
  destruct (state_error eps nbound (nbuffers s) (buffer_size s) F P (length X) He HN ltac:(lia) Sz LF Mo NP C HX) as [H|H].
  - rewrite H in *. replace (Z.of_nat 0 + delta (collapse_even_low s))%Z with 0%Z by lia. exact HQ.
  - eapply Qle_trans; [|exact H]. rewrite <- Zle_Qle. lia.
Qed.

Theorem eps_inv eps nbound nb bs h : (0 <= eps)%Q -> sized eps nbound nb bs -> legal h -> small h -> uniform nbound nb bs h -> within nbound h ->
  exists s F P E, eval h = Ok s /\ Inv s F P (samples h) E /\ q_count s = Z.of_nat (length (samples h)) /\ q_nbound s = nbound
   /\ (inject_Z (Z.of_nat (E + hidF (nbuffers s) F) + delta (collapse_even_low s)) <= 2 * eps * inject_Z (Z.of_nat (length (samples h) + carried h)))%Q.
Proof.
  intros He Sz Lg Sm Un Wi.
  destruct (eval_inv (good eps nbound nb bs)) with (h := h) as (s & F & P & E & Ee & I & G & C & A1 & A2 & A3); auto.
  - intros ? ? ? ? _ _. cbn [carried]. unfold Qle. simpl. lia.
  - intros h0 v E G U W. cbn [carried uniform within] in *. apply G; tauto.
  - intros ? _ _. cbn [carried]. unfold Qle. simpl. lia.
  - intros h0 q a E G U W. cbn [carried uniform within] in *. apply G; tauto.
  - intros h0 o E X1 _ _ G U W. cbn [carried uniform within] in *. rewrite X1. apply G; tauto.
  - intros h0 o Es Et t F P Nf No Gs Gt Eo I N1 N2 U W. cbn [uniform within] in *. destruct U as [U1 U2], W as (_ & W1 & W2).
    specialize (Gs U1 W1). specialize (Gt U2 W2). destruct (uniform_shape _ _ _ _ U1) as (A1 & A2 & _). destruct (uniform_shape _ _ _ _ U2) as (B1 & B2 & _).
    assert (Nh : samples h0 <> []) by (intros H; apply Nf; split; auto; split; congruence). cbn [carried]. destruct (samples h0) as [|x r] eqn:Ex; [congruence|]. clear Nf Nh.
    assert (Sz' : sized eps nbound (nbuffers t) (buffer_size t)) by (rewrite N1, N2, B1, B2; exact Sz).
    pose proof (Inv_state_error eps nbound t F P (samples o) Et He Sz' I (within_len _ _ W2)) as K.
    assert (Hd : (0 <= delta (collapse_even_low t) <= 1)%Z) by (unfold delta; destruct (collapse_even_low t); lia).
    replace (Z.of_nat (hidF (nbuffers t) F) + delta (collapse_even_low t))%Z with (Z.of_nat (hidF (nbuffers t) F + Z.to_nat (delta (collapse_even_low t)))) in K by lia.
    rewrite !Nat2Z.inj_add, !inject_Z_plus in *. lra.
  - destruct (uniform_shape _ _ _ _ Un) as (B1 & B2 & B3). exists s, F, P, E. split; auto. split; auto. split; auto. split; [congruence|].
    assert (Sz' : sized eps nbound (nbuffers s) (buffer_size s)) by (rewrite A1, A2, B1, B2; exact Sz).
    pose proof (Inv_state_error eps nbound s F P (samples h) E He Sz' I (within_len _ _ Wi)) as K. specialize (G Un Wi).
    rewrite !Nat2Z.inj_add, !inject_Z_plus in *. lra.
Qed.

(** ** Adding a list, with the collapses it makes *)
Lemma set_count_inv s F P X E n : Inv s F P X E -> Inv (set_count s n) F P X E.
Proof.
  intros [R0 C0 K0 D0 E0]. split; auto. destruct R0 as [[R0 N0]|(R0 & N0)].
  - left. split; auto. destruct R0 as [Sh0 ? ? ? ? ? ? ? ? ? ?]. split; auto. destruct Sh0; split; auto.
  - right. split; auto. destruct R0 as (Sh0 & ?). split; auto. destruct Sh0; split; auto.
Qed.

Theorem add_all_spec l : forall s F P X E, Inv s F P X E -> q_count s = Z.of_nat (length X) -> (Z.of_nat (length X + length l) < 10 ^ 14)%Z ->
  exists s' F' P', add_all s l = Ok s' /\ Inv s' F' P' (X ++ l) E /\ q_count s' = Z.of_nat (length (X ++ l)) /\ q_nbound s' = q_nbound s
    /\ nbuffers s' = nbuffers s /\ buffer_size s' = buffer_size s
    /\ Z.of_nat (hidF (nbuffers s) F') = (Z.of_nat (hidF (nbuffers s) F) + hidden (collapse_weights s l))%Z.
Proof.
  induction l as [|v l IH]; intros s F P X E I C Hl.
  - exists s, F, P. rewrite app_nil_r. cbn. split; auto. split; auto. split; auto. split; auto. split; auto. split; auto. lia.
  - cbn [add_all collapse_weights]. unfold q_add. set (s0 := set_count s (q_count s + 1)%Z). cbn [length] in Hl.
    pose proof (set_count_inv s F P X E (q_count s + 1)%Z I) as I0. fold s0 in I0.
    destruct (addQ_inv s0 F P X E v I0) as (s1 & F1 & P1 & E1 & I1 & R1 & N1 & (S1 & S2 & S3 & S4 & S5) & St). { unfold s0; fields. lia. }
    change (nbuffers s0) with (nbuffers s) in S1, St. change (buffer_size s0) with (buffer_size s) in S2, St. change (q_nbound s0) with (q_nbound s) in S3.
    change (q_count s0) with (q_count s + 1)%Z in S4. rewrite E1. cbn [bind].
    destruct (IH s1 F1 P1 (X ++ [v]) E I1) as (s2 & F2 & P2 & E2 & I2 & C2 & Q2 & B2 & Z2 & H2). { rewrite S4, C, app_length. simpl. lia. } { rewrite app_length. simpl. lia. }
    exists s2, F2, P2. rewrite <- app_assoc in I2, C2. cbn [app] in I2, C2. split; auto. split; auto. split; auto. split; [congruence|]. split; [congruence|]. split; [congruence|].
    rewrite S1 in H2. rewrite H2. unfold hidden in *. rewrite map_app, fold_right_app.
    assert (FA : forall (a : list Z) z, fold_right Z.add z a = (fold_right Z.add 0 a + z)%Z) by (induction a as [|y a IHa]; intros; cbn [fold_right]; [lia|rewrite IHa; lia]).
    rewrite FA. assert (Sh := Rep_shape _ _ _ (in_rep _ _ _ _ _ I)). assert (HN := sh_nb _ Sh). assert (HB := sh_bs _ Sh). destruct (Rep_len _ _ _ (in_rep _ _ _ _ _ I)) as [FL LF].
    assert (HB1 : 1 <= buffer_size s) by lia.
    assert (Cd : (cur_buffer s =? Z.of_nat (nbuffers s) - 1)%Z && (cur_buffer_pos s =? buffer_size s) = true <-> length P = buffer_size s /\ S (length F) = nbuffers s).
    { destruct (in_rep _ _ _ _ _ I) as [[R _]|((_ & CL & _) & -> & ->)]; [rewrite (rf_cur _ _ _ R), (rf_pos _ _ _ R)|rewrite CL; cbn [length]]; lia. }
    destruct (astep_hidden _ _ HN HB1 _ _ _ _ _ _ _ St FL LF) as [(H3 & H4 & _)|(H3 & H4 & G1 & b & H5 & H6 & H7)].
    + replace (_ && _) with false. { cbn [map fold_right]. rewrite H3. lia. } symmetry. apply not_true_iff_false. intros H. apply Cd in H. lia.
    + replace (_ && _) with true by (symmetry; apply Cd; auto).
      assert (Eb : nth_error F1 (length G1) = Some b) by (rewrite H5, nth_error_app2, Nat.sub_diag by lia; reflexivity).
      destruct (rf_full _ _ _ R1 _ _ Eb) as (_ & _ & _ & W & _). rewrite S1 in W. rewrite (rf_cur _ _ _ R1), H5, app_length. cbn [length].
      replace (Z.to_nat (Z.of_nat (length G1 + 1) - 1)) with (length G1) by lia. rewrite (nth_error_nth _ _ 0%Z W). cbn [map fold_right]. rewrite H5 in H7. lia.
Qed.

(** No collapse is needed while the samples fit. *)
Lemma fits_exact s F P X E : Inv s F P X E -> length X <= nbuffers s * buffer_size s -> hidF (nbuffers s) F = 0.
Proof.
  intros I HX. pose proof I as [R C _ _ _]. assert (Sh := Rep_shape _ _ _ R). assert (HN := sh_nb _ Sh). assert (HB := sh_bs _ Sh).
  destruct F as [|x F0]; [reflexivity|]. destruct R as [[R N]|(_ & N & _)]; [|discriminate]. destruct N as [N|N]; [|discriminate].
  assert (LP : 1 <= length P) by (destruct P; simpl; [congruence|lia]). pose proof (fcount_first (nbuffers s) (buffer_size s) x F0 P LP) as Hf. rewrite C in Hf.
  destruct (fst x) as [|l0] eqn:El.
  - apply hidF_zero. intros y Hy. pose proof (mono_levels (x :: F0) 0 (rf_mono _ _ _ R) ltac:(cbn; lia) y Hy). lia.
  - exfalso. assert (wt (nbuffers s) 1 <= wt (nbuffers s) (S l0)) by (apply wt_mono_l; lia).
    assert (wt (nbuffers s) 1 = nbuffers s) by (generalize (nbuffers s); clear; intros n; induction n as [|n IH]; [reflexivity|]; rewrite wt_S_S, wt_S_0; lia). nia.
Qed.
