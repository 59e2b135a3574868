From Coq Require Import List Arith ZArith QArith Lqa Lia Bool ZifyBool ZifyNat.
From Verif Require Import Common CommonFacts ListFacts Arith Stats_Spec Stats_Model Stats_Proofs Sequence_Model Sequence_Spec.
Import ListNotations.
Local Open Scope nat_scope.

(** ** Pairs of neighbours *)
Fixpoint pairup {X} (f : X -> X -> X) (l : list X) : list X :=
  match l with a :: b :: r => f a b :: pairup f r | _ => [] end.

Lemma list_ind2 {X} (P : list X -> Prop) : P [] -> (forall a, P [a]) -> (forall a b l, P l -> P (a :: b :: l)) -> forall l, P l.
Proof. intros H0 H1 H2. fix IH 1. intros [|a [|b l]]; [exact H0|apply H1|apply H2, IH]. Qed.

Lemma pairup_nth {X} (f : X -> X -> X) l : forall j, nth_error (pairup f l) j =
  match nth_error l (2 * j), nth_error l (2 * j + 1) with Some a, Some b => Some (f a b) | _, _ => None end.
Proof.
  induction l as [|a|a b l IH] using list_ind2; intros j.
  - destruct j; reflexivity.
  - destruct j; cbn; auto. rewrite ?Nat.add_succ_r. cbn. destruct (j + (j + 0)); reflexivity.
  - cbn [pairup]. destruct j as [|j]; [reflexivity|]. cbn [nth_error]. rewrite IH. replace (2 * S j) with (S (S (2 * j))) by lia. reflexivity.
Qed.
Lemma pairup_length {X} (f : X -> X -> X) l : length (pairup f l) = length l / 2.
Proof.
  induction l as [|a|a b l IH] using list_ind2; [reflexivity|reflexivity|]. cbn [pairup length]. rewrite IH.
  replace (S (S (length l))) with (length l + 1 * 2) by lia. rewrite Nat.div_add by lia. lia.
Qed.
Lemma pairup_concat {X} (l : list (list X)) : length l mod 2 = 0 -> concat (pairup (@app X) l) = concat l.
Proof.
  induction l as [|a|a b l IH] using list_ind2; intros H; [reflexivity|discriminate|]. cbn [pairup concat]. rewrite IH, app_assoc; auto.
  cbn [length] in H. replace (S (S (length l))) with (length l + 1 * 2) in H by lia. now rewrite Nat.mod_add in H by lia.
Qed.
Lemma pairup_Forall2 {X Y} (R R' : X -> Y -> Prop) f g l m : Forall2 R l m -> (forall a b x y, R a x -> R b y -> R' (f a b) (g x y)) -> Forall2 R' (pairup f l) (pairup g m).
Proof.
  intros H K. revert m H. induction l as [|a|a b l IH] using list_ind2; intros m H; inversion H as [|? x ? m1 H1 H2]; subst; [constructor|inversion H2; constructor|].
  inversion H2 as [|? y ? m2 H3 H4]; subst. cbn [pairup]. constructor; auto.
Qed.
Lemma pairup_Forall {X} (P P' : X -> Prop) f l : Forall P l -> (forall a b, P a -> P b -> P' (f a b)) -> Forall P' (pairup f l).
Proof.
  intros H K. induction l as [|a|a b l IH] using list_ind2; [constructor|constructor|]. inversion H as [|? ? H1 H2]; subst. inversion H2; subst. cbn. constructor; auto.
Qed.

Lemma firstn_S_nth {X} (l : list X) i x : nth_error l i = Some x -> firstn (S i) l = firstn i l ++ [x].
Proof. revert l. induction i as [|i IH]; intros [|a l] H; try discriminate; cbn in *; [now injection H as ->|]. f_equal. now apply IH. Qed.
Lemma firstn_upd_le {X} (l : list X) i j x : j <= i -> firstn j (upd l i x) = firstn j l.
Proof.
  intros H. apply nth_error_ext. intros k. destruct (Nat.ltb_spec k j); [rewrite !nth_error_firstn_lt, nth_error_upd_neq by lia; reflexivity|].
  rewrite !(proj2 (nth_error_None _ _)); auto; rewrite firstn_length; lia.
Qed.

(** ** The loop that halves the sequence in place *)
Lemma halve_spec A m (v0 : list (num A)) h : length v0 = 2 * h -> forall n i v, i + n <= h -> length v = length v0 ->
  (forall k, 2 * i <= k -> nth_error v k = nth_error v0 k) -> firstn i v = firstn i (pairup (merge_two A m) v0) ->
  exists v', halve A m (seq i n) v = Ok v' /\ length v' = length v0 /\ firstn (i + n) v' = firstn (i + n) (pairup (merge_two A m) v0).
Proof.
  intros L0. induction n as [|n IH]; intros i v Hi Lv Eq Fi.
  - exists v. rewrite Nat.add_0_r. auto.
  - cbn [seq halve]. destruct (get_lt v (2 * i)) as (x & Ex & Gx); [lia|]. destruct (get_lt v (2 * i + 1)) as (y & Ey & Gy); [lia|]. rewrite Gx, Gy. cbn [bind].
    rewrite put_ok by lia. cbn [bind]. replace (i + S n) with (S i + n) by lia. apply IH.
    + lia.
    + now rewrite length_upd.
    + intros k Hk. rewrite nth_error_upd_neq by lia. apply Eq. lia.
    + assert (E1 : nth_error (pairup (merge_two A m) v0) i = Some (merge_two A m x y)).
      { rewrite pairup_nth, <- (Eq (2 * i)), <- (Eq (2 * i + 1)) by lia. now rewrite Ex, Ey. }
      rewrite (firstn_S_nth _ _ _ E1), <- Fi. rewrite (firstn_S_nth _ i (merge_two A m x y)) by (apply nth_error_upd_eq; lia). f_equal. apply firstn_upd_le. lia.
Qed.
Lemma halve_all A m (v0 : list (num A)) h : length v0 = 2 * h ->
  exists v', halve A m (seq 0 h) v0 = Ok v' /\ firstn h v' = pairup (merge_two A m) v0.
Proof.
  intros L. destruct (halve_spec A m v0 h L h 0 v0) as (v' & E & Lv & F); auto. exists v'. split; auto. cbn [Nat.add] in F. rewrite F. apply firstn_all2.
  rewrite pairup_length, L, Nat.mul_comm, Nat.div_mul; lia.
Qed.

(** ** The representation *)
Definition part_ok (m : mode) (x : xnum) (rest : list Q) : Prop :=
  match m with
  | MergeMax => (rest = [] /\ x = Fin (inject_Z 0)) \/ (rest <> [] /\ is_max x rest)
  | _ => fin_eq x (qsum rest)
  end.

Record SInv (s : seqstat exact) (mr : nat) (m : mode) (l : list Q) (blocks : list (list Q)) (rest : list Q) (k : nat) : Prop := {
  si_mr : max_retain s = mr;
  si_mode : merge_mode s = m;
  si_ppb : points_per_bucket s = (2 ^ Z.of_nat k)%Z;
  si_l : l = concat blocks ++ rest;
  si_blocks : Forall (fun b => length b = 2 ^ k) blocks;
  si_vals : Forall2 (is_agg m) (values s) blocks;
  si_rest : length rest < 2 ^ k;
  si_remain : points_remain s = (2 ^ Z.of_nat k - Z.of_nat (length rest))%Z;
  si_new : part_ok m (new_value s) rest;
  si_zero : rest = [] -> new_value s = Fin (inject_Z 0);
  si_len : length blocks <= mr;
  si_full : length blocks = mr -> rest = [];
  si_half : k = 0 \/ mr * 2 ^ k < 2 * length l }.

Lemma pow2Z k : Z.of_nat (2 ^ k) = (2 ^ Z.of_nat k)%Z.
Proof. rewrite Nat2Z.inj_pow. reflexivity. Qed.
Lemma pow2_pos k : 1 <= 2 ^ k.
Proof. pose proof (Nat.pow_nonzero 2 k). lia. Qed.

Lemma is_max_fin x b : b <> [] -> is_max x b -> exists q, x = Fin q.
Proof. intros N [[H _]|(q & H & _)]; [congruence|eauto]. Qed.

Lemma qlen_nz b : b <> [] -> ~ (qlen b == 0)%Q.
Proof. intros N. pose proof (qlen_pos b N). lra. Qed.

Lemma merge_two_ok m n x y a b : 1 <= n -> length a = n /\ is_agg m x a -> length b = n /\ is_agg m y b -> length (a ++ b) = n + n /\ is_agg m (merge_two exact m x y) (a ++ b).
Proof.
  intros Hn [La Ha] [Lb Hb]. split; [rewrite app_length; lia|]. assert (Na : a <> []) by (destruct a; simpl in *; [lia|discriminate]). assert (Nb : b <> []) by (destruct b; simpl in *; [lia|discriminate]).
  assert (Nab : a ++ b <> []) by (destruct a; [congruence|discriminate]).
  destruct m; cbn [is_agg merge_two] in *.
  - destruct Ha as (p & -> & Hp), Hb as (q & -> & Hq). exists (p + q)%Q. split; [reflexivity|]. rewrite qsum_app. lra.
  - destruct Ha as (p & -> & Hp), Hb as (q & -> & Hq). cbn [exact nadd ndiv of_int xadd xdiv]. assert (Z2 : Qeq_bool (inject_Z 2) 0 = false) by reflexivity. rewrite Z2.
    eexists. split; [reflexivity|]. rewrite Hp, Hq. unfold qmean in *. pose proof (qlen_nz a Na) as Za. pose proof (qlen_nz b Nb) as Zb. pose proof (qlen_nz (a ++ b) Nab) as Zab.
    assert (E1 : (qlen b == qlen a)%Q) by (unfold qlen; rewrite La, Lb; reflexivity).
    assert (E2 : (qlen (a ++ b) == 2 * qlen a)%Q). { unfold qlen. rewrite app_length, La, Lb, Nat2Z.inj_add, inject_Z_plus. ring. }
    rewrite qsum_app, E1, E2. change (inject_Z 2) with 2%Q. field. exact Za.
  - pose proof (is_max_app x y a b Ha Hb) as H. destruct (is_max_fin x a Na Ha) as (p & ->), (is_max_fin y b Nb Hb) as (q & ->). cbn [exact nlt] in *.
    destruct (xlt (Fin q) (Fin p)) eqn:E.
    + assert (E' : xlt (Fin p) (Fin q) = false) by (apply xlt_fin in E; apply xlt_fin_false; lra). rewrite E' in H. exact H.
    + destruct (xlt (Fin p) (Fin q)) eqn:E'; [exact H|]. apply xlt_fin_false in E, E'.
      destruct Hb as [[Hb _]|(q' & Hb & Iq & Mq)]; [congruence|]. injection Hb as <-. right. exists q. split; [reflexivity|]. split; [apply in_or_app; now right|].
      intros z Hz. apply in_app_or in Hz. destruct Hz as [Hz|Hz]; [|auto]. destruct Ha as [[Ha _]|(p' & Ha & _ & Mp)]; [congruence|]. injection Ha as <-. specialize (Mp z Hz). lra.
Qed.

Lemma part_add m x rest v : (m = MergeMax -> (0 <= v)%Q) -> part_ok m x rest ->
  part_ok m (match m with MergeMax => if xlt (Fin v) x then x else Fin v | _ => xadd x (Fin v) end) (rest ++ [v]).
Proof.
  intros Hv H. destruct m; cbn [part_ok] in *.
  - destruct H as (p & -> & Hp). exists (p + v)%Q. split; [reflexivity|]. rewrite qsum_app, qsum_one. lra.
  - destruct H as (p & -> & Hp). exists (p + v)%Q. split; [reflexivity|]. rewrite qsum_app, qsum_one. lra.
  - right. split; [destruct rest; discriminate|]. destruct H as [[-> ->]|[N M]].
    + specialize (Hv eq_refl). cbn [app]. right. exists v. split; [|split; [now left|intros z [<-|[]]; lra]].
      destruct (xlt (Fin v) (Fin (inject_Z 0))) eqn:E; [|reflexivity]. apply xlt_fin in E. change (inject_Z 0) with 0%Q in E. lra.
    + destruct M as [[M _]|(q & -> & I & M)]; [congruence|]. destruct (xlt (Fin v) (Fin q)) eqn:E.
      * apply xlt_fin in E. right. exists q. split; [reflexivity|]. split; [apply in_or_app; now left|]. intros z Hz. apply in_app_or in Hz. destruct Hz as [Hz|[<-|[]]]; [auto|lra].
      * apply xlt_fin_false in E. right. exists v. split; [reflexivity|]. split; [apply in_or_app; right; now left|]. intros z Hz. apply in_app_or in Hz. destruct Hz as [Hz|[<-|[]]]; [specialize (M z Hz); lra|lra].
Qed.

(** what [sq_add] does after the possible halving *)
Definition tail_of A (s : seqstat A) (vals : list A) (ppb rem : Z) (value : A) : res (seqstat A) :=
  let st := st_add A (sq_stats s) value in
  let nv := match merge_mode s with
            | MergeMax => if nlt value (new_value s) then new_value s else value
            | _ => nadd (new_value s) value
            end in
  let rem := (rem - 1)%Z in
  if (rem =? 0)%Z then
    let nv := match merge_mode s with MergeMean => ndiv nv (of_int ppb) | _ => nv end in
    let vals := vals ++ [nv] in
    let! _ := invariant (length vals <=? max_retain s)%nat in
    Ok (mkSeq st (max_retain s) (merge_mode s) vals (interval_width s) (of_int 0) ppb ppb)
  else Ok (mkSeq st (max_retain s) (merge_mode s) vals (interval_width s) nv ppb rem).

(** one addition, after the possible halving *)
Lemma add_tail (s : seqstat exact) vals ppb v mr m l blocks rest k : 2 <= mr -> (m = MergeMax -> (0 <= v)%Q) ->
  max_retain s = mr -> merge_mode s = m -> ppb = (2 ^ Z.of_nat k)%Z -> l = concat blocks ++ rest -> Forall (fun b => length b = 2 ^ k) blocks ->
  Forall2 (is_agg m) vals blocks -> length rest < 2 ^ k -> part_ok m (new_value s) rest -> length blocks < mr -> (k = 0 \/ mr * 2 ^ k <= 2 * length l) ->
  exists s' blocks' rest',
   tail_of exact s vals ppb (ppb - Z.of_nat (length rest)) (Fin v) = Ok s'
   /\ SInv s' mr m (l ++ [v]) blocks' rest' k.
Proof.
  intros Hmr Hv Em Emd Ep El Hb Hvals Hr Hn Hlen Hhalf. unfold tail_of. cbv zeta. pose proof (part_add m (new_value s) rest v Hv Hn) as Hp. rewrite Emd.
  pose proof (pow2Z k) as PZ. pose proof (pow2_pos k) as PP. pose proof (Forall2_length' _ _ _ Hvals) as LV.
  destruct (ppb - Z.of_nat (length rest) - 1 =? 0)%Z eqn:E.
  - assert (LR : length (rest ++ [v]) = 2 ^ k) by (rewrite app_length; simpl; lia).
    assert (NR : rest ++ [v] <> []) by (destruct rest; discriminate).
    match goal with |- context [invariant ?c] => replace c with true by (symmetry; rewrite app_length; cbn [length]; apply Nat.leb_le; change (length vals + 1 <= max_retain s); lia) end. cbn [invariant bind].
    eexists _, (blocks ++ [rest ++ [v]]), []. split; [reflexivity|]. split; cbn [max_retain merge_mode points_per_bucket values points_remain new_value]; auto.
    + subst l. rewrite concat_app. cbn. rewrite !app_nil_r, <- !app_assoc. reflexivity.
    + apply Forall_app. split; auto.
    + apply Forall2_app; auto. constructor; [|constructor]. destruct m; cbn [is_agg part_ok] in *; auto.
      * destruct Hp as (p & Hp1 & Hp2). change (fin_eq (xdiv (xadd (new_value s) (Fin v)) (Fin (inject_Z ppb))) (qmean (rest ++ [v]))). rewrite Hp1. cbn [xdiv]. assert (Zn : Qeq_bool (inject_Z ppb) 0 = false). { apply Qeq_bool_false. rewrite Ep, <- PZ. intros H. unfold Qeq in H. simpl in H. lia. }
        rewrite Zn. eexists. split; [reflexivity|]. unfold qmean, qlen. rewrite Hp2, LR, PZ, Ep. reflexivity.
      * destruct Hp as [[Hp _]|[_ Hp]]; [congruence|exact Hp].
    + simpl. lia.
    + destruct m; cbn [part_ok]; [exists (inject_Z 0); split; [reflexivity|rewrite qsum_nil; reflexivity]|exists (inject_Z 0); split; [reflexivity|rewrite qsum_nil; reflexivity]|left; auto].
    + rewrite app_length; simpl; lia.
    + rewrite app_length; cbn [length]; destruct Hhalf; [now left|right; lia].
  - eexists _, blocks, (rest ++ [v]). split; [reflexivity|]. split; cbn [max_retain merge_mode points_per_bucket values points_remain new_value]; auto.
    + subst l. now rewrite app_assoc.
    + rewrite app_length; simpl; lia.
    + rewrite app_length; simpl; lia.
    + intros H. destruct rest; discriminate.
    + lia.
    + lia.
    + rewrite app_length; cbn [length]; destruct Hhalf; [now left|right; lia].
Qed.

Lemma concat_length {X} (bs : list (list X)) n : Forall (fun b => length b = n) bs -> length (concat bs) = length bs * n.
Proof. induction 1 as [|b bs H _ IH]; cbn; auto. rewrite app_length, H, IH. lia. Qed.

Theorem add_inv s mr m l blocks rest k v : 2 <= mr -> mr mod 2 = 0 -> (m = MergeMax -> (0 <= v)%Q) -> SInv s mr m l blocks rest k ->
  (Z.of_nat (length l) < Z.of_nat mr * 2 ^ 30)%Z ->
  exists s' blocks' rest' k', sq_add exact s (Fin v) = Ok s' /\ SInv s' mr m (l ++ [v]) blocks' rest' k'.
Proof.
  intros Hmr Ev Hv I Hl. pose proof I as [Em Emd Ep El Hb Hvals Hr Hrem Hn Hz Hlen Hfull Hhalf]. unfold sq_add. assert (LV : @length (num exact) (values s) = length blocks) by exact (Forall2_length' _ _ _ Hvals).
  pose proof (pow2Z k) as PZ. pose proof (pow2_pos k) as PP.
  destruct (length (values s) =? max_retain s) eqn:E.
  - assert (Lb : length blocks = mr) by lia. specialize (Hfull Lb). subst rest. specialize (Hz eq_refl). rewrite Hz.
    replace (points_remain s =? points_per_bucket s)%Z with true by (rewrite Ep, Hrem; simpl; lia). replace (neq (Fin (inject_Z 0) : exact) (of_int 0)) with true by reflexivity. cbn [andb invariant bind].
    assert (Mh : mr = 2 * (mr / 2)) by (pose proof (Nat.div_mod mr 2); lia). set (h := mr / 2) in *.
    destruct (halve_all exact m (values s) h) as (v' & Eh & Fv); [lia|]. rewrite Emd, Em. fold h. rewrite Eh. cbn [bind]. rewrite Ep.
    assert (Lc : length l = mr * 2 ^ k) by (rewrite El, app_nil_r, (concat_length _ _ Hb), Lb; lia).
    assert (K : k < 30). { assert (2 ^ Z.of_nat k < 2 ^ 30 \/ 2 ^ 30 <= 2 ^ Z.of_nat k)%Z as [H|H] by lia. - apply Z.pow_lt_mono_r_iff in H; lia. - rewrite Lc in Hl. nia. }
    assert (IO : int_ok (2 ^ Z.of_nat k * 2) = Ok (2 ^ Z.of_nat (S k))%Z). { unfold int_ok. replace (2 ^ Z.of_nat k * 2)%Z with (2 ^ Z.of_nat (S k))%Z by (rewrite Nat2Z.inj_succ, Z.pow_succ_r by lia; lia).
      assert (2 ^ Z.of_nat (S k) <= 2 ^ 30)%Z by (apply Z.pow_le_mono_r; lia). assert (0 < 2 ^ Z.of_nat (S k))%Z by (apply Z.pow_pos_nonneg; lia). replace (_ && _) with true by lia. reflexivity. }
    rewrite IO. cbn [bind]. rewrite Fv.
    destruct (add_tail (mkSeq (sq_stats s) mr m (values s) (interval_width s) (Fin (inject_Z 0) : exact) (points_per_bucket s) (points_remain s)) (pairup (merge_two exact m) (values s)) (2 ^ Z.of_nat (S k))%Z v mr m l (pairup (@app Q) blocks) [] (S k)) as (s' & b' & r' & E' & I'); auto.
    + rewrite app_nil_r, pairup_concat by lia. now rewrite El, app_nil_r.
    + apply (pairup_Forall (fun b => length b = 2 ^ k)); auto. intros a b Ha Hb'. rewrite app_length, Ha, Hb'. cbn [Nat.pow]. lia.
    + assert (H2 : Forall2 (fun x b => length b = 2 ^ k /\ is_agg m x b) (values s) blocks).
      { clear - Hvals Hb. induction Hvals as [|x b xs bs H1 H2 IH]; [constructor|]. inversion Hb; subst. constructor; auto. }
      apply (pairup_Forall2 _ (is_agg m) (merge_two exact m) (@app Q)) in H2; auto. intros x y a b Ha Hb'. exact (proj2 (merge_two_ok m (2 ^ k) x y a b PP Ha Hb')).
    + pose proof (pow2_pos (S k)). simpl length. lia.
    + cbn [new_value]. destruct m; cbn [part_ok]; [exists (inject_Z 0); split; [reflexivity|rewrite qsum_nil; reflexivity]|exists (inject_Z 0); split; [reflexivity|rewrite qsum_nil; reflexivity]|left; auto].
    + rewrite pairup_length, Lb. fold h. lia.
    + right. rewrite Lc. cbn [Nat.pow]. lia.
    + exists s', b', r', (S k). split; auto. revert E'. cbn [merge_mode new_value max_retain sq_stats interval_width length Z.of_nat]. rewrite Z.sub_0_r. auto.
  - cbn [bind]. destruct (add_tail s (values s) (points_per_bucket s) v mr m l blocks rest k) as (s' & b' & r' & E' & I'); auto; [lia|destruct Hhalf; [now left|right; lia]|].
    exists s', b', r', k. split; auto. rewrite Hrem, <- Ep. exact E'.
Qed.

Lemma new_inv mr m s : sq_new exact mr m = Ok s -> 2 <= mr /\ mr mod 2 = 0 /\ SInv s mr m [] [] [] 0.
Proof.
  unfold sq_new. destruct (0 <? mr) eqn:E1; [|discriminate]. cbn [invariant bind]. destruct (mr mod 2 =? 0) eqn:E2; [|discriminate]. cbn [invariant bind]. intros H. injection H as <-.
  assert (H2 : mr mod 2 = 0) by lia. split; [destruct mr as [|[|mr]]; [lia|discriminate|lia]|]. split; auto.
  split; cbn; auto; try lia. destruct m; cbn [part_ok]; [exists (inject_Z 0); split; reflexivity|exists (inject_Z 0); split; reflexivity|left; auto].
Qed.

Lemma reset_inv s mr m : max_retain s = mr -> merge_mode s = m -> 2 <= mr -> SInv (sq_reset exact s) mr m [] [] [] 0.
Proof.
  intros <- <- H. split; cbn; auto; try lia. destruct (merge_mode s); cbn [part_ok]; [exists (inject_Z 0); split; reflexivity|exists (inject_Z 0); split; reflexivity|left; auto].
Qed.

Lemma add_stats A s v s' : sq_add A s v = Ok s' -> sq_stats s' = st_add A (sq_stats s) v.
Proof.
  unfold sq_add. match goal with |- context [bind ?c _] => destruct c as [[[vals ppb] rem]| | |] end; try discriminate. cbn [bind]. destruct (_ =? 0)%Z.
  - destruct (invariant _); try discriminate. cbn [bind]. intros H. injection H as <-. reflexivity.
  - intros H. injection H as <-. reflexivity.
Qed.

Lemma empty_inv s mr m blocks rest k : 2 <= mr -> SInv s mr m [] blocks rest k -> blocks = [] /\ rest = [] /\ k = 0.
Proof.
  intros Hm [Em Emd Ep El Hb Hvals Hr Hrem Hn Hz Hlen Hfull Hhalf]. symmetry in El. apply app_eq_nil in El. destruct El as [E1 E2].
  pose proof (pow2_pos k). assert (blocks = []). { destruct blocks as [|b bs]; auto. inversion Hb; subst. cbn in E1. apply app_eq_nil in E1. destruct E1 as [-> _]. simpl in *. lia. }
  subst blocks rest. split; auto. split; auto. destruct Hhalf as [?|Hh]; auto. cbn [length] in Hh. lia.
Qed.

Theorem run_inv ops : forall s mr m l0 blocks rest k, 2 <= mr -> mr mod 2 = 0 -> legal mr m l0 ops -> SInv s mr m l0 blocks rest k -> Rep (sq_stats s) l0 ->
  exists s' blocks' rest' k', sq_run s ops = Ok s' /\ SInv s' mr (fold_left mode_step ops m) (fold_left samples_step ops l0) blocks' rest' k' /\ Rep (sq_stats s') (fold_left samples_step ops l0).
Proof.
  induction ops as [|o ops IH]; intros s mr m l0 blocks rest k Hmr Ev [Hl Hp] I R.
  - exists s, blocks, rest, k. auto.
  - destruct Hp as [Hp Hr]. cbn [fold_left sq_run]. destruct o as [v| |m']; cbn [sq_step samples_step mode_step] in *.
    + destruct (add_inv s mr m l0 blocks rest k v Hmr Ev Hp I) as (s1 & b1 & r1 & k1 & E1 & I1).
      { destruct ops; destruct Hr as [Hr _]; rewrite app_length in Hr; cbn [length] in Hr; lia. }
      rewrite E1. cbn [bind]. apply IH with (blocks := b1) (rest := r1) (k := k1); auto. rewrite (add_stats _ _ _ _ E1). now apply Rep_add.
    + cbn [bind]. apply IH with (blocks := []) (rest := []) (k := 0); auto. * apply reset_inv; auto; apply I. * apply Rep_new.
    + subst l0. destruct (empty_inv _ _ _ _ _ _ Hmr I) as (-> & -> & ->). pose proof I as [Em Emd Ep El Hb Hvals Hrr Hrem Hn Hz Hlen Hfull Hhalf]. inversion Hvals as [H0|]. unfold setMergeMode.
      replace (length (values s)) with 0 by (rewrite <- H0; reflexivity). cbn [Nat.eqb invariant bind]. apply IH with (blocks := []) (rest := []) (k := 0); auto.
      split; cbn; auto. { rewrite <- H0. constructor. } rewrite Hz by auto. destruct m'; cbn [part_ok]; [exists (inject_Z 0); split; reflexivity|exists (inject_Z 0); split; reflexivity|left; auto].
Qed.

(** ** Reading the representation off *)
Lemma bucket_nth w blocks rest i b : Forall (fun b => length b = w) blocks -> nth_error blocks i = Some b -> bucket w (concat blocks ++ rest) i = b.
Proof.
  unfold bucket. intros H. revert i. induction H as [|c cs Hc _ IH]; intros [|i] E; try discriminate; cbn [nth_error concat] in *.
  - injection E as ->. cbn [Nat.mul skipn]. rewrite <- app_assoc, firstn_app, Hc, Nat.sub_diag, firstn_O, app_nil_r. apply firstn_all2. lia.
  - rewrite <- (IH i E). f_equal. rewrite <- app_assoc. replace (S i * w) with (i * w + w) by lia. rewrite <- skipn_skipn. f_equal.
    rewrite skipn_app, Hc, Nat.sub_diag. cbn [skipn]. rewrite (skipn_all2 c) by lia. reflexivity.
Qed.
Lemma blocks_count s mr m l blocks rest k : SInv s mr m l blocks rest k -> length blocks = length l / 2 ^ k.
Proof.
  intros [Em Emd Ep El Hb Hvals Hr Hrem Hn Hz Hlen Hfull Hhalf]. subst l. rewrite app_length, (concat_length _ _ Hb), Nat.div_add_l by (pose proof (pow2_pos k); lia). rewrite (Nat.div_small (length rest)); lia.
Qed.
