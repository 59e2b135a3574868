From Coq Require Import List Arith ZArith QArith Qround Lqa Lia Bool ZifyBool ZifyNat.
From Verif Require Import Common CommonFacts ListFacts Arith Stats_Spec Stats_Model Stats_Proofs Group_Model Group_Spec.
Import ListNotations.
Local Open Scope nat_scope.

Definition qn (n : nat) : Q := inject_Z (Z.of_nat n).
Lemma qn_S n : (qn (S n) == qn n + 1)%Q.
Proof. unfold qn. rewrite Nat2Z.inj_succ. unfold Z.succ. rewrite inject_Z_plus. reflexivity. Qed.
Lemma qn_add n m : (qn (n + m) == qn n + qn m)%Q.
Proof. unfold qn. rewrite Nat2Z.inj_add, inject_Z_plus. reflexivity. Qed.
Lemma qn_pos n : (0 <= qn n)%Q.
Proof. unfold qn. change 0%Q with (inject_Z 0). rewrite <- Zle_Qle. lia. Qed.
Lemma qn_lt n m : (qn n < qn m)%Q <-> n < m.
Proof. unfold qn. rewrite <- Zlt_Qlt. lia. Qed.

Lemma xle_fin a b : xle (Fin a) (Fin b) = true <-> (a <= b)%Q.
Proof. cbn. apply Qle_bool_iff. Qed.
Lemma xle_fin_false a b : xle (Fin a) (Fin b) = false <-> (b < a)%Q.
Proof. cbn. rewrite <- not_true_iff_false, Qle_bool_iff. split; lra. Qed.

(** ** Interval numbers *)
Definition inside (i t0 t : Q) (m : nat) : Prop := (t0 + qn m * i <= t /\ t < t0 + (qn m + 1) * i)%Q.
Lemma interval_no_inside i t0 t : (0 < i)%Q -> (t0 <= t)%Q -> inside i t0 t (interval_no i t0 t).
Proof.
  intros Hi Ht. unfold interval_no, inside, qn. set (q := ((t - t0) / i)%Q). assert (Eq : (q * i == t - t0)%Q) by (unfold q; field; lra).
  assert (Q0 : (0 <= q)%Q) by (unfold q; apply Qle_shift_div_l; lra). assert (F0 : (0 <= Qfloor q)%Z) by (apply Qfloor_resp_le in Q0; exact Q0).
  rewrite Z2Nat.id by lia. pose proof (Qfloor_le q) as F1. pose proof (Qlt_floor q) as F2. rewrite inject_Z_plus in F2. change (inject_Z 1) with 1%Q in F2. set (z := inject_Z (Qfloor q)) in *. clearbody z.
  assert (A1 : (z * i <= q * i)%Q) by (apply Qmult_le_compat_r; lra). assert (A2 : (q * i < (z + 1) * i)%Q) by (apply Qmult_lt_compat_r; lra). lra.
Qed.
Lemma inside_unique i t0 t m n : (0 < i)%Q -> inside i t0 t m -> inside i t0 t n -> m = n.
Proof.
  intros Hi [A B] [C D]. assert (X : (qn m * i < (qn n + 1) * i)%Q) by lra. assert (Y : (qn n * i < (qn m + 1) * i)%Q) by lra.
  apply Qmult_lt_r in X, Y; auto. rewrite <- qn_S in X, Y. apply qn_lt in X, Y. lia.
Qed.
Lemma inside_interval i t0 t m : (0 < i)%Q -> inside i t0 t m -> interval_no i t0 t = m.
Proof.
  intros Hi H. apply (inside_unique i t0 t); auto. apply interval_no_inside; auto. destruct H as [H _]. pose proof (qn_pos m). assert (0 <= qn m * i)%Q by (apply Qmult_le_0_compat; lra). lra.
Qed.
Lemma interval_no_mono i t0 a b : (0 < i)%Q -> (t0 <= a)%Q -> (a <= b)%Q -> interval_no i t0 a <= interval_no i t0 b.
Proof.
  intros Hi Ha Hb. unfold interval_no. apply Z2Nat.inj_le.
  - assert (H : (0 <= (a - t0) / i)%Q) by (apply Qle_shift_div_l; lra). apply Qfloor_resp_le in H. exact H.
  - assert (H : (0 <= (b - t0) / i)%Q) by (apply Qle_shift_div_l; lra). apply Qfloor_resp_le in H. exact H.
  - apply Qfloor_resp_le. apply Qle_shift_div_l; auto. assert (E : ((a - t0) / i * i == a - t0)%Q) by (field; lra). lra.
Qed.

(** ** The loop over empty intervals *)
Lemma gap_spec i t n : (0 < i)%Q -> forall c subs fuel, inside i c t n -> n < fuel ->
  exists c', gap exact fuel (Fin i) (Fin t) (Fin c) subs = Ok (Fin c', subs ++ repeat None n) /\ (c' == c + qn n * i)%Q.
Proof.
  intros Hi. induction n as [|n IH]; intros c subs fuel [H1 H2] Hf; destruct fuel as [|fuel]; try lia; cbn [gap].
  - change (@nle exact (Fin i) (@nsub exact (Fin t) (Fin c))) with (xle (Fin i) (Fin (t + - c))). replace (xle (Fin i) (Fin (t + - c))) with false. 2: { symmetry. apply xle_fin_false. change (qn 0) with 0%Q in *. lra. }
    exists c. rewrite app_nil_r. split; [reflexivity|]. change (qn 0) with 0%Q. ring.
  - change (@nle exact (Fin i) (@nsub exact (Fin t) (Fin c))) with (xle (Fin i) (Fin (t + - c))). rewrite qn_S in H1, H2.
    assert (P : (0 <= qn n * i)%Q) by (apply Qmult_le_0_compat; [apply qn_pos|lra]). assert (E : ((qn n + 1) * i == qn n * i + i)%Q) by ring. assert (E2 : ((qn n + 1 + 1) * i == qn n * i + i + i)%Q) by ring.
    replace (xle (Fin i) (Fin (t + - c))) with true. 2: { symmetry. apply xle_fin. lra. }
    change (@nadd exact (Fin c) (Fin i)) with (Fin (c + i)). destruct (IH (c + i)%Q (subs ++ [None]) fuel) as (c' & E' & Ec); [split; lra|lia|].
    exists c'. rewrite E'. split; [f_equal; f_equal; rewrite <- app_assoc; reflexivity|]. rewrite Ec, qn_S. lra.
Qed.

(** ** The representation *)
Record GInv (g : group exact) (i t0 last : Q) (l : list sample_q) : Prop := {
  gi_i : interval g = Fin i;
  gi_first : first_time g = Fin t0;
  gi_last : last_time g = Fin last;
  gi_le : (t0 <= last)%Q;
  gi_cur : exists c, cur_interval_start g = Fin c /\ (c == t0 + qn (interval_no i t0 last) * i)%Q;
  gi_len : length (g_subs g) = S (interval_no i t0 last);
  gi_all : forall s, In s l -> interval_no i t0 (snd s) <= interval_no i t0 last;
  gi_cur_nonempty : interval_no i t0 last = 0 \/ in_interval i t0 l (interval_no i t0 last) <> [];
  gi_subs : forall j, j <= interval_no i t0 last ->
    nth_error (g_subs g) j = Some (if (j =? 0) || negb (match in_interval i t0 l j with [] => true | _ => false end) then Some (map inj (in_interval i t0 l j)) else None) }.

Lemma in_interval_snoc i t0 l s j : in_interval i t0 (l ++ [s]) j = in_interval i t0 l j ++ (if interval_no i t0 (snd s) =? j then [s] else []).
Proof. unfold in_interval. rewrite filter_app. cbn [filter]. reflexivity. Qed.
Lemma in_interval_above i t0 l j k : (forall s, In s l -> interval_no i t0 (snd s) <= k) -> k < j -> in_interval i t0 l j = [].
Proof.
  intros H Hj. unfold in_interval. induction l as [|a l IH]; [reflexivity|]. cbn [filter]. replace (interval_no i t0 (snd a) =? j) with false by (specialize (H a (or_introl eq_refl)); lia). apply IH. intros s Hs. apply H. now right.
Qed.

Lemma start_inv (g : group exact) i t0 g1 : (0 < i)%Q -> interval g = Fin i -> g_subs g = [] -> setSeriesStart exact g (Fin t0) = Ok g1 -> GInv g1 i t0 t0 [].
Proof.
  intros Hi Ei Es. unfold setSeriesStart. destruct (invariant _); try discriminate. cbn [bind]. intros E. injection E as <-.
  assert (I0 : interval_no i t0 t0 = 0). { apply inside_interval; auto. unfold inside. change (qn 0) with 0%Q. lra. }
  split; cbn [interval first_time last_time cur_interval_start g_subs]; rewrite ?I0; auto.
  - lra.
  - exists t0. split; [reflexivity|]. change (qn 0) with 0%Q. lra.
  - rewrite Es. reflexivity.
  - intros s [].
  - intros j Hj. replace j with 0 by lia. rewrite Es. reflexivity.
Qed.

Lemma repeat_none_nth n j X : j < n -> nth_error (repeat (@None X) n) j = Some None.
Proof. intros H. now rewrite nth_error_repeat. Qed.

Theorem g_add_inv g i t0 last l v t fuel : (0 < i)%Q -> GInv g i t0 last l -> (last <= t)%Q -> interval_no i t0 t < fuel ->
  exists g', g_addTimeSeq exact fuel g (Fin v) (Fin t) = Ok g' /\ GInv g' i t0 t (l ++ [(v, t)]) /\ g_base g' = st_add exact (g_base g) (Fin v).
Proof.
  intros Hi [Ei Ef El Hle (c & Ec & Hc) Hlen Hall Hcn Hsubs] Ht Hfuel. unfold g_addTimeSeq. rewrite El.
  replace (is_nan exact (Fin last)) with false. 2: { symmetry. unfold is_nan. cbn. replace (Qeq_bool last last) with true; [reflexivity|]. symmetry. apply Qeq_bool_iff. reflexivity. }
  cbn [bind]. rewrite El. change (@nle exact (Fin last) (Fin t)) with (xle (Fin last) (Fin t)). replace (xle (Fin last) (Fin t)) with true by (symmetry; apply xle_fin; exact Ht). cbn [invariant bind].
  rewrite Ei, Ec. change (@nle exact (Fin i) (@nsub exact (Fin t) (Fin c))) with (xle (Fin i) (Fin (t + - c))). set (k := interval_no i t0 last) in *.
  pose proof (interval_no_inside i t0 last Hi Hle) as Ik. fold k in Ik. pose proof (interval_no_inside i t0 t Hi ltac:(lra)) as Ik'. set (k' := interval_no i t0 t) in *.
  assert (Kmono : k <= k') by (apply interval_no_mono; auto).
  assert (Mid : exists c' subs', (if xle (Fin i) (Fin (t + - c)) then let! (cur, subs) := gap exact fuel (Fin i) (Fin t) (@nadd exact (Fin c) (Fin i)) (g_subs g) in Ok (cur, subs ++ [Some []]) else Ok (Fin c, g_subs g)) = Ok (Fin c', subs')
     /\ (c' == t0 + qn k' * i)%Q /\ length subs' = S k' /\
     (forall j, j <= k -> nth_error subs' j = nth_error (g_subs g) j) /\ (forall j, k < j -> j < k' -> nth_error subs' j = Some None) /\ (k < k' -> nth_error subs' k' = Some (Some []))).
  { assert (EK : k' = k \/ k < k') by lia. destruct EK as [EK|LK].
    - exists c, (g_subs g). replace (xle (Fin i) (Fin (t + - c))) with false. 2: { symmetry. apply xle_fin_false. destruct Ik' as [_ B]. rewrite EK in B. assert (E : ((qn k + 1) * i == qn k * i + i)%Q) by ring. lra. }
      split; [reflexivity|]. rewrite EK. split; [exact Hc|]. split; [exact Hlen|]. split; [auto|]. split; [lia|lia].
    - pose (n := k' - k - 1). assert (En : k' = k + 1 + n) by lia. destruct Ik' as [B1 B2]. rewrite En in B1, B2. rewrite !qn_add in B1, B2. change (qn 1) with 1%Q in B1, B2.
      assert (P : (0 <= qn n * i)%Q) by (apply Qmult_le_0_compat; [apply qn_pos|lra]). assert (E : ((qn k + 1 + qn n) * i == qn k * i + i + qn n * i)%Q) by ring. assert (E2 : ((qn k + 1 + qn n + 1) * i == qn k * i + i + qn n * i + i)%Q) by ring. assert (E3 : ((qn n + 1) * i == qn n * i + i)%Q) by ring.
      replace (xle (Fin i) (Fin (t + - c))) with true by (symmetry; apply xle_fin; lra).
      change (@nadd exact (Fin c) (Fin i)) with (Fin (c + i)). destruct (gap_spec i t n Hi (c + i)%Q (g_subs g) fuel) as (c' & Eg & Hc'); [split; lra|lia|]. rewrite Eg. cbn [bind].
      eexists c', _. split; [reflexivity|]. split; [rewrite En, !qn_add; change (qn 1) with 1%Q; lra|]. assert (LR : length (repeat (@None (list (num exact * num exact))) n) = n) by apply repeat_length.
      split; [rewrite !app_length, LR, Hlen; cbn [length]; lia|]. split; [|split].
      + intros j Hj. rewrite !nth_error_app1; auto; rewrite ?app_length, ?LR, ?Hlen; lia.
      + intros j H1 H2. rewrite nth_error_app1 by (rewrite app_length, LR, Hlen; lia). rewrite nth_error_app2 by (rewrite Hlen; lia). apply repeat_none_nth. rewrite Hlen. lia.
      + intros _. rewrite nth_error_app2 by (rewrite app_length, LR, Hlen; lia). rewrite app_length, LR, Hlen. replace (k' - (S k + n)) with 0 by lia. reflexivity. }
  destruct Mid as (c' & subs' & Em & Hc' & Ls & S1 & S2 & S3).
  match goal with |- context [bind ?m _] => replace m with (@Ok (num exact * list (option (list (num exact * num exact)))) (Fin c', subs')) by (symmetry; exact Em) end. cbn [bind].
  replace (length subs' - 1) with k' by lia.
  assert (SK : exists cur_l, nth_error subs' k' = Some (Some cur_l) /\ cur_l = map inj (in_interval i t0 l k')).
  { assert (EK : k' = k \/ k < k') by lia. destruct EK as [EK|LK].
    - rewrite EK, S1 by lia. rewrite Hsubs by lia. destruct Hcn as [C0|C0].
      + rewrite C0. cbn [Nat.eqb orb]. eauto.
      + destruct (in_interval i t0 l k) as [|x xs] eqn:EI; [congruence|]. rewrite orb_true_r. eauto.
    - rewrite S3 by lia. exists []. split; [reflexivity|]. rewrite (in_interval_above i t0 l k' k); auto. }
  destruct SK as (cur_l & SK & ->). rewrite (get_Some _ _ _ SK). cbn [bind]. rewrite put_ok by lia. cbn [bind].
  eexists. split; [reflexivity|]. split; [|reflexivity].
  split; cbn [interval first_time last_time cur_interval_start g_subs]; fold k'; auto.
  - lra.
  - exists c'. auto.
  - rewrite length_upd. exact Ls.
  - intros s Hs. apply in_app_or in Hs. destruct Hs as [Hs|[<-|[]]]; [specialize (Hall s Hs); lia|cbn [snd]; fold k'; lia].
  - right. rewrite in_interval_snoc. cbn [snd]. fold k'. rewrite Nat.eqb_refl. destruct (in_interval i t0 l k'); discriminate.
  - intros j Hj. rewrite in_interval_snoc. cbn [snd]. fold k'. destruct (Nat.eqb_spec k' j) as [<-|Nj].
    + rewrite nth_error_upd_eq by lia. f_equal. replace (match in_interval i t0 l k' ++ [(v, t)] with [] => true | _ => false end) with false by (destruct (in_interval i t0 l k'); reflexivity).
      cbn [negb]. rewrite orb_true_r, map_app. reflexivity.
    + rewrite nth_error_upd_neq by lia. rewrite app_nil_r. destruct (Nat.le_gt_cases j k) as [C|C].
      * rewrite S1 by lia. apply Hsubs. lia.
      * rewrite S2 by lia. rewrite (in_interval_above i t0 l j k) by auto. replace (j =? 0) with false by lia. reflexivity.
Qed.

Lemma fold_last (l : list sample_q) t0 : fold_left (fun _ s => snd s) l t0 = List.last (map snd l) t0.
Proof. destruct l as [|x l] using rev_ind; [reflexivity|]. rewrite fold_left_app, map_app. cbn [fold_left map]. now rewrite last_last. Qed.

Theorem g_feed_inv i t0 fuel l : (0 < i)%Q -> forall g last l0, GInv g i t0 last l0 -> ordered last l -> (forall s, In s l -> interval_no i t0 (snd s) < fuel) ->
  exists g', g_feed exact fuel g (map inj l) = Ok g' /\ GInv g' i t0 (fold_left (fun _ s => snd s) l last) (l0 ++ l) /\
   g_base g' = fold_left (fun b s => st_add exact b (Fin (fst s))) l (g_base g).
Proof.
  intros Hi. induction l as [|[v t] l IH]; intros g last l0 I O Hf.
  - exists g. rewrite app_nil_r. auto.
  - destruct O as [O1 O2]. cbn [snd] in *. cbn [map inj fst snd g_feed]. destruct (g_add_inv g i t0 last l0 v t fuel Hi I O1 (Hf _ (or_introl eq_refl))) as (g1 & E1 & I1 & B1). rewrite E1. cbn [bind].
    destruct (IH g1 t (l0 ++ [(v, t)]) I1 O2 (fun s Hs => Hf s (or_intror Hs))) as (g2 & E2 & I2 & B2). exists g2. rewrite <- app_assoc in I2. cbn [fold_left snd fst]. rewrite <- B1. auto.
Qed.

(** ** StatsRW *)
Section RW.
Context {A : arith} (fuel : nat).

Local Notation o_feed := (@Group_Spec.o_feed A fuel).
Local Notation p_feed := (@Group_Spec.p_feed A fuel).

Lemma o_feed_app l1 l2 o : o_feed o (l1 ++ l2) = let! o := o_feed o l1 in o_feed o l2.
Proof. revert o. induction l1 as [|[v t] l1 IH]; intros o; [reflexivity|]. cbn [app o_feed]. destruct (o_add A fuel o v t); cbn [bind]; auto. Qed.
Lemma p_feed_snoc o l v t o1 o2 : p_feed o l = Ok o1 -> opt A o1 (fun o => o_add A fuel o v t) = Ok o2 -> p_feed o (l ++ [(v, t)]) = Ok o2.
Proof.
  destruct o as [o|]; cbn [p_feed].
  - rewrite o_feed_app. destruct (o_feed o l) as [x| | |]; try discriminate. cbn [bind]. intros H. injection H as <-. cbn [opt o_feed]. destruct (o_add A fuel x v t); try discriminate. cbn [bind]. auto.
  - intros H. injection H as <-. cbn [opt]. auto.
Qed.

(** what rw_add does before and after the start of the groups *)
Definition start_part (s : rw A) (t : A) : res (rw A) :=
  if allStatsSeriesGroup s then
    let! cr := deref A (rd s) (fun o => Ok (o_count A o)) in
    let! cw := deref A (wr s) (fun o => Ok (o_count A o)) in
    if ((cr =? 0) && (cw =? 0))%Z then
      let! r := deref A (rd s) (fun o => o_start A o t) in
      let! w := deref A (wr s) (fun o => o_start A o t) in
      let! a := deref A (al s) (fun o => o_start A o t) in
      Ok (mkRW (Some r) (Some w) (Some a) (autoAll s) (allStatsSeriesGroup s))
    else Ok s
  else Ok s.
Definition body (s : rw A) (value : A) (m : modeT) (t : A) : res (rw A) :=
  let! s :=
    match m with
    | Read => let! r := opt A (rd s) (fun o => o_add A fuel o value t) in Ok (mkRW r (wr s) (al s) (autoAll s) (allStatsSeriesGroup s))
    | Write => let! w := opt A (wr s) (fun o => o_add A fuel o value t) in Ok (mkRW (rd s) w (al s) (autoAll s) (allStatsSeriesGroup s))
    | All =>
      let! a := (if autoAll s then opt A (al s) (fun o => Ok (o_reset A o)) else Ok (al s)) in
      let! a := opt A a (fun o => o_add A fuel o value t) in
      Ok (mkRW (rd s) (wr s) a false (allStatsSeriesGroup s))
    end in
  if autoAll s then
    let! a := opt A (al s) (fun o => o_add A fuel o value t) in
    Ok (mkRW (rd s) (wr s) a (autoAll s) (allStatsSeriesGroup s))
  else Ok s.
Lemma rw_add_split s v m t : rw_add A fuel s v m t = let! s := start_part s t in body s v m t.
Proof. reflexivity. Qed.

(** [s] is what the three objects [r], [w], [a] become under the samples [l] *)
Definition holds (r w a : option (obj A)) (l : list (sample A)) (s : rw A) : Prop :=
  p_feed r (of_mode Read l) = Ok (rd s) /\ p_feed w (of_mode Write l) = Ok (wr s) /\
  (if has_all l then exists a1, p_feed a (map vt (before_all l)) = Ok a1 /\ p_feed (p_reset a1) (of_mode All l) = Ok (al s)
   else p_feed a (map vt l) = Ok (al s)) /\
  autoAll s = negb (has_all l).

Lemma before_all_id (l : list (sample A)) : has_all l = false -> before_all l = l.
Proof. unfold has_all. induction l as [|x l IH]; [reflexivity|]. cbn [existsb before_all]. intros H. apply orb_false_iff in H. destruct H as [-> H]. rewrite IH; auto. Qed.
Lemma before_all_snoc (l : list (sample A)) x : has_all l = true -> before_all (l ++ [x]) = before_all l.
Proof. unfold has_all. induction l as [|y l IH]; [discriminate|]. cbn [existsb app before_all]. intros H. destruct (is_mode All y); [reflexivity|]. f_equal. now apply IH. Qed.
Lemma before_all_end (l : list (sample A)) x : has_all l = false -> is_mode All x = true -> before_all (l ++ [x]) = l.
Proof. unfold has_all. induction l as [|y l IH]; cbn [existsb app before_all]; [intros _ ->; reflexivity|]. intros H Hx. apply orb_false_iff in H. destruct H as [-> H]. f_equal. auto. Qed.
Lemma of_mode_snoc m (l : list (sample A)) x : of_mode m (l ++ [x]) = of_mode m l ++ (if is_mode m x then [vt x] else []).
Proof. unfold of_mode. rewrite filter_app, map_app. cbn [filter]. destruct (is_mode m x); reflexivity. Qed.
Lemma of_all_none (l : list (sample A)) : has_all l = false -> of_mode All l = [].
Proof. unfold has_all, of_mode. induction l as [|y l IH]; [reflexivity|]. cbn [existsb filter]. intros H. apply orb_false_iff in H. destruct H as [-> H]. auto. Qed.
Lemma has_all_snoc (l : list (sample A)) x : has_all (l ++ [x]) = has_all l || is_mode All x.
Proof. unfold has_all. rewrite existsb_app. cbn [existsb]. now rewrite orb_false_r. Qed.
Lemma p_feed_nil o : p_feed o [] = Ok o.
Proof. destruct o; reflexivity. Qed.

Lemma body_holds r w a l s x s' : holds r w a l s -> body s (s_value x) (s_mode x) (s_time x) = Ok s' -> holds r w a (l ++ [x]) s' /\ allStatsSeriesGroup s' = allStatsSeriesGroup s.
Proof.
  intros (Hr & Hw & Ha & Au) E. unfold body in E. rewrite Au in E. unfold holds. rewrite has_all_snoc, !of_mode_snoc.
  destruct x as [m v t]. cbn [s_value s_mode s_time] in *. unfold is_mode, vt in *. cbn [s_mode s_value s_time] in *. destruct m; cbn [orb] in *; rewrite ?orb_false_r, ?orb_true_r.
  - destruct (opt A (rd s) (fun o => o_add A fuel o v t)) as [r'| | |] eqn:Er; try discriminate. cbn [bind autoAll] in E. pose proof (p_feed_snoc _ _ _ _ _ _ Hr Er) as Hr'.
    destruct (has_all l) eqn:HA; cbn [negb] in E.
    + injection E as <-. cbn [rd wr al autoAll allStatsSeriesGroup]. rewrite !app_nil_r. destruct Ha as (a1 & A1 & A2). split; [|reflexivity]. split; [exact Hr'|]. split; [exact Hw|]. split; [|reflexivity]. exists a1. rewrite before_all_snoc by exact HA. auto.
    + cbn [rd wr al] in E. destruct (opt A (al s) (fun o => o_add A fuel o v t)) as [a'| | |] eqn:Ea; try discriminate. cbn [bind] in E. injection E as <-. cbn [rd wr al autoAll allStatsSeriesGroup]. rewrite !app_nil_r. split; [|reflexivity]. split; [exact Hr'|]. split; [exact Hw|]. split; [|reflexivity].
      rewrite map_app. exact (p_feed_snoc _ _ _ _ _ _ Ha Ea).
  - destruct (opt A (wr s) (fun o => o_add A fuel o v t)) as [w'| | |] eqn:Er; try discriminate. cbn [bind autoAll] in E. pose proof (p_feed_snoc _ _ _ _ _ _ Hw Er) as Hw'.
    destruct (has_all l) eqn:HA; cbn [negb] in E.
    + injection E as <-. cbn [rd wr al autoAll allStatsSeriesGroup]. rewrite !app_nil_r. destruct Ha as (a1 & A1 & A2). split; [|reflexivity]. split; [exact Hr|]. split; [exact Hw'|]. split; [|reflexivity]. exists a1. rewrite before_all_snoc by exact HA. auto.
    + cbn [rd wr al] in E. destruct (opt A (al s) (fun o => o_add A fuel o v t)) as [a'| | |] eqn:Ea; try discriminate. cbn [bind] in E. injection E as <-. cbn [rd wr al autoAll allStatsSeriesGroup]. rewrite !app_nil_r. split; [|reflexivity]. split; [exact Hr|]. split; [exact Hw'|]. split; [|reflexivity].
      rewrite map_app. exact (p_feed_snoc _ _ _ _ _ _ Ha Ea).
  - destruct (has_all l) eqn:HA; cbn [negb] in E.
    + cbn [bind] in E. destruct (opt A (al s) (fun o => o_add A fuel o v t)) as [a'| | |] eqn:Ea; try discriminate. cbn [bind autoAll] in E. injection E as <-. cbn [rd wr al autoAll allStatsSeriesGroup]. rewrite !app_nil_r. split; [|reflexivity].
      split; [exact Hr|]. split; [exact Hw|]. split; [|reflexivity]. destruct Ha as (a1 & A1 & A2). exists a1. rewrite before_all_snoc by exact HA. split; [exact A1|]. exact (p_feed_snoc _ _ _ _ _ _ A2 Ea).
    + assert (EO : opt A (al s) (fun o => Ok (o_reset A o)) = Ok (p_reset (al s))) by (destruct (al s); reflexivity). rewrite EO in E. cbn [bind] in E.
      destruct (opt A (p_reset (al s)) (fun o => o_add A fuel o v t)) as [a'| | |] eqn:Ea; try discriminate. cbn [bind autoAll] in E. injection E as <-. cbn [rd wr al autoAll allStatsSeriesGroup]. rewrite !app_nil_r. split; [|reflexivity].
      split; [exact Hr|]. split; [exact Hw|]. split; [|reflexivity]. exists (al s). rewrite before_all_end by (auto; reflexivity). split; [exact Ha|]. rewrite of_all_none by exact HA. apply (p_feed_snoc _ [] _ _ (p_reset (al s))); [apply p_feed_nil|exact Ea].
Qed.

Lemma holds_nil r w a f : holds r w a [] (mkRW r w a true f).
Proof. unfold holds. cbn. rewrite !p_feed_nil. auto. Qed.

Lemma rw_run_app l1 l2 s : rw_run A fuel s (l1 ++ l2) = let! s := rw_run A fuel s l1 in rw_run A fuel s l2.
Proof. revert s. induction l1 as [|x l1 IH]; intros s; [reflexivity|]. cbn [app rw_run]. destruct (rw_add _ _ _ _ _ _); cbn [bind]; auto. Qed.

(** objects that are not three groups *)
Theorem run_holds r w a l s' : is_group A r && is_group A w && is_group A a = false -> rw_run A fuel (rw_new A r w a) l = Ok s' -> holds r w a l s'.
Proof.
  intros NG. assert (G : forall s', rw_run A fuel (rw_new A r w a) l = Ok s' -> holds r w a l s' /\ allStatsSeriesGroup s' = false); [|intros E; exact (proj1 (G _ E))].
  clear s'. induction l as [|x l IH] using rev_ind; intros s' E.
  - cbn in E. injection E as <-. split; [apply holds_nil|exact NG].
  - rewrite rw_run_app in E. destruct (rw_run A fuel (rw_new A r w a) l) as [s1| | |]; try discriminate. cbn [bind rw_run] in E. destruct (IH s1 eq_refl) as [H1 F1].
    rewrite rw_add_split in E. unfold start_part in E. rewrite F1 in E. cbn [bind] in E.
    destruct (body s1 (s_value x) (s_mode x) (s_time x)) as [s2| | |] eqn:Eb; try discriminate. cbn [bind] in E. injection E as <-. destruct (body_holds _ _ _ _ _ _ _ H1 Eb) as [H2 F2]. split; [exact H2|congruence].
Qed.

(** ** three groups *)
Lemma g_add_count g v t g' : g_addTimeSeq A fuel g v t = Ok g' -> g_count A g' = ((g_count A g + 1) mod 2 ^ 64)%Z.
Proof.
  unfold g_addTimeSeq. assert (B : forall g1, (if is_nan A (last_time g) then setSeriesStart A g t else Ok g) = Ok g1 -> g_base g1 = g_base g).
  { intros g1. destruct (is_nan A (last_time g)); [unfold setSeriesStart; destruct (invariant _); try discriminate; cbn [bind]; intros H; injection H as <-; reflexivity|intros H; injection H as <-; reflexivity]. }
  destruct (if is_nan A (last_time g) then setSeriesStart A g t else Ok g) as [g1| | |]; try discriminate. specialize (B g1 eq_refl). cbn [bind]. destruct (invariant _); try discriminate. cbn [bind].
  match goal with |- context [bind ?c _] => destruct c as [[cur subs]| | |]; try discriminate end. cbn [bind]. destruct (get subs _) as [[sub|]| | |]; try discriminate. cbn [bind]. destruct (put _ _ _); try discriminate. cbn [bind].
  intros H. injection H as <-. unfold g_count. cbn [g_base]. rewrite B. reflexivity.
Qed.
Lemma o_feed_group l : forall g o, o_feed (Group g) l = Ok o -> exists g', o = Group g' /\ ((0 <= g_count A g < 2 ^ 64)%Z -> g_count A g' = ((g_count A g + Z.of_nat (length l)) mod 2 ^ 64)%Z).
Proof.
  induction l as [|[v t] l IH]; intros g o E.
  - cbn in E. injection E as <-. exists g. split; [reflexivity|]. intros H. cbn [length]. rewrite Z.mod_small; lia.
  - cbn [o_feed o_add] in E. destruct (g_addTimeSeq A fuel g v t) as [g1| | |] eqn:E1; try discriminate. cbn [bind] in E. destruct (IH g1 o E) as (g2 & -> & C). exists g2. split; [reflexivity|]. intros H.
    pose proof (g_add_count _ _ _ _ E1) as C1. rewrite C by (rewrite C1; apply Z.mod_pos_bound; lia). rewrite C1, Z.add_mod_idemp_l by lia. f_equal. cbn [length]. lia.
Qed.
Lemma p_feed_group g l o : p_feed (Some (Group g)) l = Ok o -> exists g', o = Some (Group g') /\ ((0 <= g_count A g < 2 ^ 64)%Z -> g_count A g' = ((g_count A g + Z.of_nat (length l)) mod 2 ^ 64)%Z).
Proof. cbn [p_feed]. destruct (o_feed (Group g) l) as [o'| | |] eqn:E; try discriminate. cbn [bind]. intros H. injection H as <-. destruct (o_feed_group _ _ _ E) as (g' & -> & C). eauto. Qed.

Lemma mode_counts (l : list (sample A)) : length (of_mode Read l) + length (of_mode Write l) + length (of_mode All l) = length l.
Proof. unfold of_mode. rewrite !map_length. induction l as [|[m v t] l IH]; [reflexivity|]. cbn [filter is_mode s_mode]. destruct m; cbn [length]; lia. Qed.

Theorem groups_hold r w a x l s' : g_count A r = 0%Z -> g_count A w = 0%Z -> s_mode x <> All -> (Z.of_nat (length (x :: l)) < 2 ^ 64)%Z ->
  rw_run A fuel (rw_new A (Some (Group r)) (Some (Group w)) (Some (Group a))) (x :: l) = Ok s' ->
  exists r1 w1 a1, setSeriesStart A r (s_time x) = Ok r1 /\ setSeriesStart A w (s_time x) = Ok w1 /\ setSeriesStart A a (s_time x) = Ok a1 /\
    holds (Some (Group r1)) (Some (Group w1)) (Some (Group a1)) (x :: l) s'.
Proof.
  intros Cr Cw Nx HL E. cbn [rw_run] in E. rewrite rw_add_split in E. unfold start_part, rw_new in E. cbn [is_group andb allStatsSeriesGroup rd wr al deref o_count bind autoAll] in E. rewrite Cr, Cw in E. cbn [Z.eqb andb o_start] in E.
  destruct (setSeriesStart A r (s_time x)) as [r1| | |] eqn:Er; try discriminate. cbn [bind] in E. destruct (setSeriesStart A w (s_time x)) as [w1| | |] eqn:Ew; try discriminate. cbn [bind] in E. destruct (setSeriesStart A a (s_time x)) as [a1| | |] eqn:Ea; try discriminate. cbn [bind] in E.
  exists r1, w1, a1. split; [reflexivity|]. split; [reflexivity|]. split; [reflexivity|].
  assert (SC : forall g t g1, setSeriesStart A g t = Ok g1 -> g_count A g1 = g_count A g). { intros g t g1. unfold setSeriesStart. destruct (invariant _); try discriminate. cbn [bind]. intros H. injection H as <-. reflexivity. }
  pose proof (SC _ _ _ Er) as Cr1. pose proof (SC _ _ _ Ew) as Cw1. rewrite Cr in Cr1. rewrite Cw in Cw1.
  destruct (body _ (s_value x) (s_mode x) (s_time x)) as [s1| | |] eqn:Eb in E; try discriminate. cbn [bind] in E.
  destruct (body_holds _ _ _ _ _ _ _ (holds_nil (Some (Group r1)) (Some (Group w1)) (Some (Group a1)) true) Eb) as [H1 _]. cbn [app] in H1.
  assert (G : forall s', rw_run A fuel s1 l = Ok s' -> holds (Some (Group r1)) (Some (Group w1)) (Some (Group a1)) (x :: l) s'); [|exact (G _ E)].
  clear E s' Eb. revert HL. induction l as [|y l IH] using rev_ind; intros HL s' E.
  - cbn in E. injection E as <-. exact H1.
  - rewrite rw_run_app in E. destruct (rw_run A fuel s1 l) as [s2| | |]; try discriminate. cbn [bind rw_run] in E. cbn [length] in HL. rewrite app_length in HL. cbn [length] in HL.
    assert (H2 : holds (Some (Group r1)) (Some (Group w1)) (Some (Group a1)) (x :: l) s2) by (apply IH; [cbn [length]; lia|reflexivity]). clear IH.
    rewrite rw_add_split in E. assert (ES : start_part s2 (s_time y) = Ok s2).
    { unfold start_part. destruct (allStatsSeriesGroup s2); [|reflexivity]. destruct H2 as (K1 & K2 & _). destruct (p_feed_group _ _ _ K1) as (r' & -> & C1), (p_feed_group _ _ _ K2) as (w' & -> & C2). cbn [deref bind o_count].
      rewrite C1, C2 by lia. rewrite Cr1, Cw1. cbn [Z.add].
      assert (L1 : length (of_mode Read (x :: l)) + length (of_mode Write (x :: l)) + length (of_mode All (x :: l)) = S (length l)) by exact (mode_counts (x :: l)).
      assert (L2 : 1 <= length (of_mode Read (x :: l)) \/ 1 <= length (of_mode Write (x :: l))).
      { clear - Nx. unfold of_mode. rewrite !map_length. destruct x as [m v t]. cbn [s_mode] in *. destruct m; [left|right|congruence]; cbn [filter is_mode s_mode length]; lia. }
      rewrite !Z.mod_small by lia. replace (_ && _) with false; [reflexivity|]. destruct L2; lia. }
    rewrite ES in E. cbn [bind] in E. destruct (body s2 (s_value y) (s_mode y) (s_time y)) as [s3| | |] eqn:Eb; try discriminate. cbn [bind] in E. injection E as <-.
    exact (proj1 (body_holds _ _ _ _ _ _ _ H2 Eb)).
Qed.

(** objects of other classes never fail *)
Lemma plain_feed l0 l : o_feed (Plain l0) l = Ok (Plain (l0 ++ l)).
Proof. revert l0. induction l as [|[v t] l IH]; intros l0; cbn [o_feed o_add bind]; [now rewrite app_nil_r|]. rewrite IH, <- app_assoc. reflexivity. Qed.
End RW.
