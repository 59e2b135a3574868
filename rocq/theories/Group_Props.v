(** C53: StatsSeriesGroup, C55: StatsRW. *)
From Flocq Require BinarySingleNaN.
From Coq Require Import List Arith ZArith QArith Qround Lqa Lia Bool ZifyBool ZifyNat.
From Verif Require Import Common CommonFacts Arith Double64 Stats_Spec Stats_Model Stats_Proofs Group_Model Group_Spec Group_Proofs.
Import ListNotations.
Local Open Scope nat_scope.

Lemma g_new_exact i g : g_new exact i = Ok g -> g = mkGroup (st_new exact) [] i (NaN : exact) (NaN : exact) (NaN : exact).
Proof. intros H. vm_compute in H. injection H as <-. reflexivity. Qed.

(** An object that has not started: new, or reset. *)
Definition not_started (g : group exact) (i : Q) : Prop :=
  g_new exact (Fin i) = Ok g \/ (exists g1, g = g_reset exact g1 /\ interval g1 = Fin i).

(** C53. An object with interval i > 0 that is given samples whose times do not go
    back holds, for every interval between the first and the last sample, exactly
    the samples whose time lies in that interval, in the order they came, and
    counts them all. [fuel] bounds the loop over empty intervals. Exact
    arithmetic. Partial: getSeriesStat on an interval without samples, reset, a
    zero interval and doubles, see the refutations below. *)
Theorem C53_intervals_partial : forall i g v0 t0 l fuel, (0 < i)%Q -> not_started g i -> ordered t0 l ->
  let all := (v0, t0) :: l in
  (forall s, In s all -> interval_no i t0 (snd s) < fuel) ->
  exists g', g_feed exact fuel g (map inj all) = Ok g' /\
  getSeriesLength exact g' = S (interval_no i t0 (List.last (map snd all) t0)) /\
  (forall j, in_interval i t0 all j <> [] -> getSeriesStat exact g' (Z.of_nat j) = Ok (map inj (in_interval i t0 all j))) /\
  (forall n, (n < 0 \/ Z.of_nat (getSeriesLength exact g') <= n)%Z -> getSeriesStat exact g' n = Abort) /\
  ((Z.of_nat (length all) < 2 ^ 64)%Z -> g_new exact (Fin i) = Ok g -> g_count exact g' = Z.of_nat (length all)) /\
  (forall v t f, (t < List.last (map snd all) t0)%Q -> g_addTimeSeq exact f g' (Fin v) (Fin t) = Abort).
Proof.
  intros i g v0 t0 l fuel Hi NS O all Hf.
  assert (NS' : interval g = Fin i /\ g_subs g = [] /\ last_time g = NaN).
  { destruct NS as [E|(g1 & -> & E)]; [|cbn; auto]. apply g_new_exact in E. subst g. auto. }
  destruct NS' as (Ei & Es & El).
  assert (ESt : setSeriesStart exact g (Fin t0) = Ok (mkGroup (g_base g) [Some []] (Fin i) (Fin t0 : exact) (Fin t0 : exact) (Fin t0 : exact))).
  { unfold setSeriesStart. rewrite El. cbn [is_nan invariant bind]. rewrite Es, Ei. reflexivity. }
  set (g1 := mkGroup (g_base g) [Some []] (Fin i) (Fin t0 : exact) (Fin t0 : exact) (Fin t0 : exact)) in *.
  pose proof (start_inv g i t0 g1 Hi Ei Es ESt) as I1.
  assert (EF : g_feed exact fuel g (map inj all) = g_feed exact fuel g1 (map inj all)).
  { unfold all. cbn [map inj g_feed fst snd]. f_equal. unfold g_addTimeSeq at 1. rewrite El. change (is_nan exact NaN) with true. cbn iota. rewrite ESt. cbn [bind].
    unfold g_addTimeSeq. cbn [last_time g1]. replace (is_nan exact (Fin t0)) with false; [reflexivity|]. symmetry. unfold is_nan. cbn. replace (Qeq_bool t0 t0) with true; [reflexivity|]. symmetry. apply Qeq_bool_iff. reflexivity. }
  destruct (g_feed_inv i t0 fuel all Hi g1 t0 [] I1) as (g' & E' & I' & B'); [split; [cbn [snd]; lra|exact O]|exact Hf|].
  rewrite fold_last in I'. cbn [app] in I'. exists g'. rewrite EF. split; [exact E'|]. pose proof I' as [Hi' Hf' Hl' Hle Hc Hlen Hall Hcn Hsubs]. unfold getSeriesLength.
  split; [exact Hlen|]. split; [|split; [|split]].
  - intros j N. assert (Hj : j <= interval_no i t0 (List.last (map snd all) t0)).
    { destruct (Nat.le_gt_cases j (interval_no i t0 (List.last (map snd all) t0))) as [?|C]; auto. exfalso. apply N. exact (in_interval_above i t0 all j _ Hall C). }
    unfold getSeriesStat. replace ((0 <=? Z.of_nat j) && (Z.of_nat j <? Z.of_nat (length (g_subs g'))))%Z with true by lia. cbn [invariant bind]. rewrite Nat2Z.id, (get_Some _ _ _ (Hsubs j Hj)). cbn [bind].
    destruct (in_interval i t0 all j) eqn:EI; [congruence|]. rewrite orb_true_r. reflexivity.
  - intros n Hn. unfold getSeriesStat. replace ((0 <=? n) && (n <? Z.of_nat (length (g_subs g'))))%Z with false by lia. reflexivity.
  - intros HL EN. unfold g_count. rewrite B'. apply g_new_exact in EN. subst g. cbn [g1 g_base].
    assert (C : forall (l : list sample_q) (b : stats exact) k, number b = (Z.of_nat k mod 2 ^ 64)%Z -> number (fold_left (fun (b : stats exact) (s : sample_q) => st_add exact b (Fin (fst s))) l b) = (Z.of_nat (k + length l) mod 2 ^ 64)%Z).
    { clear. induction l as [|s l IH]; intros b k H; cbn [fold_left length]; [now rewrite Nat.add_0_r|]. rewrite (IH _ (S k)); [f_equal; lia|]. cbn [st_add number]. rewrite H, Z.add_mod_idemp_l by lia. f_equal. lia. }
    unfold st_count. rewrite (C all (st_new exact) 0 eq_refl). cbn [Nat.add]. apply Z.mod_small. lia.
  - intros v t f Ht. unfold g_addTimeSeq. rewrite Hl'. replace (is_nan exact (Fin (List.last (map snd all) t0))) with false.
    2: { symmetry. unfold is_nan. generalize (List.last (map snd all) t0). intros z. cbn. replace (Qeq_bool z z) with true; [reflexivity|]. symmetry. apply Qeq_bool_iff. reflexivity. }
    cbn [bind]. rewrite Hl'. match goal with |- context [invariant ?c] => replace c with false end; [reflexivity|]. symmetry. apply xle_fin_false. exact Ht.
Qed.
Print Assumptions C53_intervals_partial.

(** What the interval number means. *)
Theorem C53_interval_no : forall i t0 t, (0 < i)%Q -> (t0 <= t)%Q ->
  forall j, interval_no i t0 t = j <-> (t0 + inject_Z (Z.of_nat j) * i <= t /\ t < t0 + (inject_Z (Z.of_nat j) + 1) * i)%Q.
Proof. intros i t0 t Hi Ht j. split; [intros <-; exact (interval_no_inside i t0 t Hi Ht)|apply inside_interval; auto]. Qed.
Print Assumptions C53_interval_no.

Definition ex_samples : list (Q * Q) := [(1, 10); (2, 12); (3, 24); (4, 25)]%Q.
(** The hypotheses are met: interval 5, samples at 10, 12, 24, 25, a gap between. *)
Example C53_ex : exists g g', not_started g 5 /\ ordered 10 (tl ex_samples) /\ (forall s, In s ex_samples -> interval_no 5 10 (snd s) < 4) /\
  g_new exact (Fin 5) = Ok g /\ g_feed exact 4 g (map inj ex_samples) = Ok g' /\ getSeriesLength exact g' = 4 /\
  getSeriesStat exact g' 2 = Ok [inj (3, 24)%Q].
Proof.
  let r := eval vm_compute in (g_new exact (Fin 5)) in match r with Ok ?x => exists x end.
  match goal with |- exists g', _ /\ _ /\ _ /\ _ /\ ?run = _ /\ _ => let r := eval vm_compute in run in match r with Ok ?x => exists x end end.
  split; [left; vm_compute; reflexivity|]. split; [cbn; repeat split; lra|]. split; [intros s [<-|[<-|[<-|[<-|[]]]]]; vm_compute; lia|].
  split; [vm_compute; reflexivity|]. split; [vm_compute; reflexivity|]. split; reflexivity.
Qed.

(** An interval without samples has no statistics object: asking for it is
    undefined behaviour, although its number is in range. *)
Theorem C53_gap_refuted : exists g g', g_new exact (Fin 5) = Ok g /\ g_feed exact 4 g (map inj ex_samples) = Ok g' /\
  1 < getSeriesLength exact g' /\ getSeriesStat exact g' 1 = UB.
Proof.
  let r := eval vm_compute in (g_new exact (Fin 5)) in match r with Ok ?x => exists x end.
  match goal with |- exists g', _ /\ ?run = _ /\ _ => let r := eval vm_compute in run in match r with Ok ?x => exists x end end.
  split; [vm_compute; reflexivity|]. split; [vm_compute; reflexivity|]. split; [vm_compute; lia|reflexivity].
Qed.
Print Assumptions C53_gap_refuted.

(** reset forgets the intervals but keeps the overall statistics. *)
Theorem C53_reset_refuted : exists g g', g_new exact (Fin 5) = Ok g /\ g_feed exact 4 g (map inj ex_samples) = Ok g' /\
  getSeriesLength exact (g_reset exact g') = 0 /\ g_count exact (g_reset exact g') = 4%Z.
Proof.
  let r := eval vm_compute in (g_new exact (Fin 5)) in match r with Ok ?x => exists x end.
  match goal with |- exists g', _ /\ ?run = _ /\ _ => let r := eval vm_compute in run in match r with Ok ?x => exists x end end.
  split; [vm_compute; reflexivity|]. split; [vm_compute; reflexivity|]. split; reflexivity.
Qed.
Print Assumptions C53_reset_refuted.

(** With interval 0 the second sample never returns: no bound on the loop is enough. *)
Lemma gap_zero t c : (c == t)%Q -> forall fuel c' subs, (c' == c)%Q -> gap exact fuel (Fin 0) (Fin t) (Fin c') subs = Fuel.
Proof.
  intros Ht. induction fuel as [|fuel IH]; intros c' subs Hc; [reflexivity|]. cbn [gap]. change (@nle exact (Fin 0) (@nsub exact (Fin t) (Fin c'))) with (xle (Fin 0) (Fin (t + - c'))).
  replace (xle (Fin 0) (Fin (t + - c'))) with true by (symmetry; apply xle_fin; lra). change (@nadd exact (Fin c') (Fin 0)) with (Fin (c' + 0)). apply IH. lra.
Qed.
Theorem C53_zero_interval_refuted : exists g, g_new exact (Fin 0) = Ok g /\ forall fuel, g_feed exact fuel g (map inj [(1, 7)]%Q) = Fuel.
Proof.
  let r := eval vm_compute in (g_new exact (Fin 0)) in match r with Ok ?x => exists x end. split; [vm_compute; reflexivity|]. intros fuel.
  cbn [map inj g_feed fst snd]. unfold g_addTimeSeq. cbn [last_time]. change (is_nan exact NaN) with true. cbn iota. unfold setSeriesStart. cbn [last_time]. change (is_nan exact NaN) with true. cbn [invariant bind interval cur_interval_start last_time g_subs app].
  change (@nle exact (Fin 7) (Fin 7)) with true. cbn [invariant bind]. change (@nle exact (Fin 0) (@nsub exact (Fin 7) (Fin 7))) with true. cbn iota.
  change (@nadd exact (Fin 7) (Fin 0)) with (Fin (7 + 0)). rewrite (gap_zero 7 7) by lra. reflexivity.
Qed.
Print Assumptions C53_zero_interval_refuted.

Lemma stuck (A : arith) (T T2 I : A) : is_nan A (nan A) = true -> nle T T = true -> nle I (nsub T T) = false -> is_nan A T = false ->
  nle T T2 = true -> nle I (nsub T2 T) = true -> nadd T I = T ->
  exists g g1, g_new A I = Ok g /\ g_addTimeSeq A 0 g I T = Ok g1 /\ forall fuel, g_addTimeSeq A fuel g1 I T2 = Fuel.
Proof.
  intros F1 F2 F3 F4 F5 F6 F7. set (n := nan A) in *. exists (mkGroup (st_new A) [] I n n n). exists (mkGroup (st_add A (st_new A) I) [Some [(I, T)]] I T T T).
  split; [unfold g_new; fold n; rewrite F1; reflexivity|]. split.
  - unfold g_addTimeSeq. cbn [last_time]. rewrite F1. unfold setSeriesStart. cbn [last_time]. rewrite F1. cbn [invariant bind interval cur_interval_start last_time g_subs app]. rewrite F2. cbn [invariant bind]. rewrite F3. reflexivity.
  - intros fuel. unfold g_addTimeSeq. cbn [last_time]. rewrite F4. cbn [bind interval cur_interval_start last_time g_subs]. rewrite F5. cbn [invariant bind]. rewrite F6, F7.
    assert (G : forall f subs, gap A f I T2 T subs = Fuel). { induction f as [|f IH]; intros subs; [reflexivity|]. cbn [gap]. rewrite F6, F7. apply IH. }
    rewrite G. reflexivity.
Qed.
(** With doubles the same happens for a positive interval: starting at time 2^53
    with interval 1, adding the interval does not change the time any more, and a
    sample at 2^53 + 2 never returns. *)
Theorem C53_double_refuted : exists g g1, g_new ieee (of_Z 1) = Ok g /\ g_addTimeSeq ieee 0 g (of_Z 1) (of_Z (2 ^ 53)) = Ok g1 /\
  forall fuel, g_addTimeSeq ieee fuel g1 (of_Z 1) (of_Z (2 ^ 53 + 2)) = Fuel.
Proof. apply (stuck ieee (of_Z (2 ^ 53)) (of_Z (2 ^ 53 + 2)) (of_Z 1)); try (vm_compute; reflexivity). apply (Flocq.IEEE754.BinarySingleNaN.B2SF_inj 53 1024). vm_compute. reflexivity. Qed.
Print Assumptions C53_double_refuted.

(** ** C55 *)
(** Three objects, any of which may be NULL, none of them a StatsSeriesGroup: they
    hold exactly the reads, the writes, and either all samples in order, or once
    an explicit All sample has come, the explicit All samples. *)
Theorem C55_all_combines : forall A fuel (has_r has_w has_a : bool) (l : list (sample A)),
  let o (b : bool) (l : list (A * A)) := if b then Some (Plain l) else None in
  exists s', rw_run A fuel (rw_new A (o has_r []) (o has_w []) (o has_a [])) l = Ok s' /\
  rd s' = o has_r (of_mode Read l) /\ wr s' = o has_w (of_mode Write l) /\ al s' = o has_a (combined l).
Proof.
  intros A fuel hr hw ha l o.
  assert (NG : is_group A (o hr []) && is_group A (o hw []) && is_group A (o ha []) = false) by (destruct hr; reflexivity).
  assert (OA : forall b x v t, opt A (o b x) (fun p => o_add A fuel p v t) = Ok (o b (x ++ [(v, t)]))) by (intros []; reflexivity).
  assert (T : exists s', rw_run A fuel (rw_new A (o hr []) (o hw []) (o ha [])) l = Ok s').
  { assert (G : forall l r w a au, exists s', rw_run A fuel (mkRW (o hr r) (o hw w) (o ha a) au false) l = Ok s'); [|exact (G l [] [] [] true)||(unfold rw_new; rewrite NG; exact (G l [] [] [] true))].
    clear l. induction l as [|[m v t] l IH]; intros r w a au; [eexists; reflexivity|]. cbn [rw_run s_value s_mode s_time]. unfold rw_add. cbn [allStatsSeriesGroup bind rd wr al autoAll].
    destruct m; rewrite ?OA; cbn [bind rd wr al autoAll allStatsSeriesGroup].
    - destruct au; rewrite ?OA; cbn [bind]; apply IH.
    - destruct au; rewrite ?OA; cbn [bind]; apply IH.
    - destruct au; cbn [bind].
      + assert (OR : opt A (o ha a) (fun p => Ok (o_reset A p)) = Ok (o ha [])) by (destruct ha; reflexivity). rewrite OR. cbn [bind]. rewrite OA. cbn [bind]. apply IH.
      + rewrite OA. cbn [bind]. apply IH. }
  destruct T as (s' & E). exists s'. split; [exact E|]. destruct (run_holds fuel _ _ _ _ _ NG E) as (Hr & Hw & Ha & _).
  assert (PF : forall b x y, p_feed fuel (o b x) y = Ok (o b (x ++ y))). { intros [] x y; cbn [o p_feed]; [rewrite plain_feed; reflexivity|reflexivity]. }
  rewrite PF in Hr, Hw. injection Hr as Hr. injection Hw as Hw. split; [now symmetry|]. split; [now symmetry|]. unfold combined.
  destruct (has_all l).
  - destruct Ha as (a1 & A1 & A2). rewrite PF in A1. injection A1 as <-. assert (PR : forall b x, p_reset (o b x) = o b []) by (intros []; reflexivity). rewrite PR, PF in A2. injection A2 as A2. now symmetry.
  - rewrite PF in Ha. injection Ha as Ha. now symmetry.
Qed.
Print Assumptions C55_all_combines.

Example C55_ex : combined [mkSample Read (of_int 1) (of_int 0); mkSample Write (of_int 2) (of_int 0); mkSample All (of_int 3) (of_int 0); mkSample Read (of_int 4) (of_int 0); mkSample (A := exact) All (of_int 5) (of_int 0)]
  = [(of_int 3, of_int 0); (of_int 5, of_int 0)].
Proof. reflexivity. Qed.

(** Three StatsSeriesGroups: all three start at the time of the first sample, and
    then each is given the samples it is meant to hold; if the run succeeds, its
    objects are those. Partial: the first sample must not be an explicit All, see
    C55_groups_refuted. *)
Theorem C55_groups_partial : forall A fuel r w a x (l : list (sample A)) s',
  g_count A r = 0%Z -> g_count A w = 0%Z -> s_mode x <> All -> (Z.of_nat (length (x :: l)) < 2 ^ 64)%Z ->
  rw_run A fuel (rw_new A (Some (Group r)) (Some (Group w)) (Some (Group a))) (x :: l) = Ok s' ->
  exists r1 w1 a1, setSeriesStart A r (s_time x) = Ok r1 /\ setSeriesStart A w (s_time x) = Ok w1 /\ setSeriesStart A a (s_time x) = Ok a1 /\
  p_feed fuel (Some (Group r1)) (of_mode Read (x :: l)) = Ok (rd s') /\
  p_feed fuel (Some (Group w1)) (of_mode Write (x :: l)) = Ok (wr s') /\
  (if has_all (x :: l) then
     exists a2, p_feed fuel (Some (Group a1)) (map vt (before_all (x :: l))) = Ok a2 /\ p_feed fuel (p_reset a2) (of_mode All (x :: l)) = Ok (al s')
   else p_feed fuel (Some (Group a1)) (map vt (x :: l)) = Ok (al s')).
Proof.
  intros A fuel r w a x l s' Cr Cw Nx HL E. destruct (groups_hold fuel r w a x l s' Cr Cw Nx HL E) as (r1 & w1 & a1 & Er & Ew & Ea & (Hr & Hw & Ha & _)).
  exists r1, w1, a1. split; [exact Er|]. split; [exact Ew|]. split; [exact Ea|]. split; [exact Hr|]. split; [exact Hw|]. exact Ha.
Qed.
Print Assumptions C55_groups_partial.

(** The hypotheses are met: a read, a write, a read and an explicit All. *)
Example C55_groups_ex : exists g s', g_new exact (Fin 5) = Ok g /\ g_count exact g = 0%Z /\
  rw_run exact 5 (rw_new exact (Some (Group g)) (Some (Group g)) (Some (Group g)))
    [mkSample Read (of_int 1) (of_int 0); mkSample Write (of_int 2) (of_int 3); mkSample Read (of_int 3) (of_int 11); mkSample All (of_int 4) (of_int 12)] = Ok s'.
Proof.
  let r := eval vm_compute in (g_new exact (Fin 5)) in match r with Ok ?x => exists x end.
  match goal with |- exists g', _ /\ _ /\ ?run = _ => let r := eval vm_compute in run in match r with Ok ?x => exists x end end.
  split; [vm_compute; reflexivity|]. split; [reflexivity|]. vm_compute; reflexivity.
Qed.

(** Two explicit All samples at the start of three StatsSeriesGroups stop the
    program: the groups are started again for the second. *)
Theorem C55_groups_refuted : exists g, g_new exact (Fin 5) = Ok g /\
  rw_run exact 5 (rw_new exact (Some (Group g)) (Some (Group g)) (Some (Group g)))
    [mkSample All (of_int 1) (of_int 0); mkSample All (of_int 2) (of_int 1)] = Abort.
Proof.
  let r := eval vm_compute in (g_new exact (Fin 5)) in match r with Ok ?x => exists x end. split; vm_compute; reflexivity.
Qed.
Print Assumptions C55_groups_refuted.

(** What printRome prints of three objects that are not groups: the overall statistics alone
    if there were only explicit All samples, otherwise each of the three that has samples. *)
Theorem C55_printed : forall A fuel (l : list (sample A)) s', (Z.of_nat (length l) < 2 ^ 64)%Z ->
  rw_run A fuel (rw_new A (Some (Plain [])) (Some (Plain [])) (Some (Plain []))) l = Ok s' ->
  exists printed, rw_sections A s' = Ok printed /\
  match printed with
  | None => l <> [] /\ forall x, In x l -> s_mode x = All
  | Some m => (In Read m <-> exists x, In x l /\ s_mode x = Read) /\ (In Write m <-> exists x, In x l /\ s_mode x = Write) /\ (In All m <-> l <> [])
      /\ NoDup m /\ (l <> [] -> exists x, In x l /\ s_mode x <> All)
  end.
Proof.
  intros A fuel l s' Hl E. destruct (C55_all_combines A fuel true true true l) as (s & E' & Hr & Hw & Ha). cbn in E'. rewrite E in E'. injection E' as <-.
  assert (M : forall m, (length (of_mode m l) <= length l)%nat).
  { intros m. unfold of_mode. rewrite map_length. clear. induction l as [|x l IH]; [auto|]. cbn [filter length]. destruct (is_mode m x); cbn [length]; lia. }
  assert (N : (length (combined l) <= length l)%nat) by (unfold combined; destruct (has_all l); [apply M|now rewrite map_length]).
  assert (I : forall m, (Z.of_nat (length (of_mode m l)) mod 2 ^ 64 =? 0)%Z = true <-> forall x, In x l -> s_mode x <> m).
  { intros m. specialize (M m). rewrite Z.mod_small by lia. rewrite Z.eqb_eq. unfold of_mode. rewrite map_length.
    assert (Q : forall x, is_mode m x = true <-> s_mode (A := A) x = m) by (intros x; unfold is_mode; destruct m, (s_mode x); split; intros; congruence).
    split.
    - intros H x Hx Hm. apply Q in Hm. assert (X : In x (filter (is_mode m) l)) by (apply filter_In; now split). destruct (filter (is_mode m) l); [destruct X|cbn in H; lia].
    - intros H. destruct (filter (is_mode m) l) as [|x r] eqn:Ef; [reflexivity|]. assert (X : In x (filter (is_mode m) l)) by (rewrite Ef; now left). apply filter_In in X. destruct X as (X & Y). apply Q in Y. destruct (H x X Y). }
  assert (J : (Z.of_nat (length (combined l)) mod 2 ^ 64 =? 0)%Z = true <-> l = []).
  { rewrite Z.mod_small by lia. rewrite Z.eqb_eq. unfold combined. destruct (has_all l) eqn:Eh.
    - unfold has_all in Eh. apply existsb_exists in Eh. destruct Eh as (x & X & Y). unfold of_mode. rewrite map_length. split.
      + intros H. assert (Z : In x (filter (is_mode All) l)) by (apply filter_In; now split). destruct (filter (is_mode All) l); [destruct Z|cbn in H; lia].
      + intros ->. destruct X.
    - rewrite map_length. split; [intros H; destruct l; [reflexivity|cbn in H; lia]|now intros ->]. }
  unfold rw_sections. rewrite Hr, Hw, Ha. cbn [deref bind o_count].
  pose proof (I Read) as Ir. pose proof (I Write) as Iw. clear I.
  assert (F : forall m (b : bool), (b = true <-> forall x, In x l -> s_mode x <> m) -> b = false -> exists x, In x l /\ s_mode x = m).
  { intros m b Hb ->. assert (D : {Exists (fun x => s_mode (A := A) x = m) l} + {~ Exists (fun x => s_mode (A := A) x = m) l}) by (apply Exists_dec; intros x; decide equality).
    destruct D as [D|D]; [apply Exists_exists in D; exact D|]. assert (T : false = true); [|discriminate]. apply Hb. intros x Hx Hm. apply D. apply Exists_exists. now exists x. }
  destruct (Z.of_nat (length (of_mode Read l)) mod 2 ^ 64 =? 0)%Z eqn:Er; destruct (Z.of_nat (length (of_mode Write l)) mod 2 ^ 64 =? 0)%Z eqn:Ew; cbn [bind deref o_count].
  - pose proof (proj1 Ir eq_refl) as Nr. pose proof (proj1 Iw eq_refl) as Nw.
    assert (Al : forall x, In x l -> s_mode x = All) by (intros x Hx; specialize (Nr x Hx); specialize (Nw x Hx); destruct (s_mode x); congruence).
    destruct (0 <? Z.of_nat (length (combined l)) mod 2 ^ 64)%Z eqn:Ep.
    + eexists; split; [reflexivity|]. split; [|exact Al]. intros El. apply J in El. lia.
    + assert (Z0 : (Z.of_nat (length (combined l)) mod 2 ^ 64 =? 0)%Z = true) by (assert (X := Z.mod_pos_bound (Z.of_nat (length (combined l))) (2 ^ 64) ltac:(lia)); lia).
      rewrite Z0. eexists; split; [reflexivity|]. apply J in Z0. subst l. cbn. split; [split; [tauto|intros (x & [] & _)]|]. split; [split; [tauto|intros (x & [] & _)]|].
      split; [split; [tauto|congruence]|]. split; [constructor|congruence].
  - destruct (F Write _ Iw eq_refl) as (y & Hy & My). pose proof (proj1 Ir eq_refl) as Nr.
    assert (Ne : l <> []) by (intros ->; destruct Hy).
    destruct (Z.of_nat (length (combined l)) mod 2 ^ 64 =? 0)%Z; [destruct (Ne (proj1 J eq_refl))|].
    eexists; split; [reflexivity|]. cbn. split; [split; [intros [X|[X|[]]]; discriminate|intros (x & Hx & Mx); destruct (Nr x Hx Mx)]|].
    split; [split; [intros _; now exists y|tauto]|]. split; [split; [auto|tauto]|]. split; [repeat constructor; cbn; intuition discriminate|].
    intros _. exists y. split; [exact Hy|]. rewrite My. discriminate.
  - destruct (F Read _ Ir eq_refl) as (y & Hy & My). pose proof (proj1 Iw eq_refl) as Nw.
    assert (Ne : l <> []) by (intros ->; destruct Hy).
    destruct (Z.of_nat (length (combined l)) mod 2 ^ 64 =? 0)%Z; [destruct (Ne (proj1 J eq_refl))|].
    eexists; split; [reflexivity|]. cbn. split; [split; [intros _; now exists y|tauto]|].
    split; [split; [intros [X|[X|[]]]; discriminate|intros (x & Hx & Mx); destruct (Nw x Hx Mx)]|]. split; [split; [auto|tauto]|]. split; [repeat constructor; cbn; intuition discriminate|].
    intros _. exists y. split; [exact Hy|]. rewrite My. discriminate.
  - destruct (F Read _ Ir eq_refl) as (y & Hy & My). destruct (F Write _ Iw eq_refl) as (z & Hz & Mz).
    assert (Ne : l <> []) by (intros ->; destruct Hy).
    destruct (Z.of_nat (length (combined l)) mod 2 ^ 64 =? 0)%Z; [destruct (Ne (proj1 J eq_refl))|].
    eexists; split; [reflexivity|]. cbn. split; [split; [intros _; now exists y|tauto]|].
    split; [split; [intros _; now exists z|tauto]|]. split; [split; [auto|tauto]|]. split; [repeat constructor; cbn; intuition discriminate|].
    intros _. exists y. split; [exact Hy|]. rewrite My. discriminate.
Qed.
Print Assumptions C55_printed.
Example C55_printed_ex : exists s', rw_run exact 5 (rw_new exact (Some (Plain [])) (Some (Plain [])) (Some (Plain []))) [mkSample All (of_int 1) (of_int 0)] = Ok s'
  /\ rw_sections exact s' = Ok None.
Proof.
  match goal with |- exists s', ?run = _ /\ _ => let r := eval vm_compute in run in match r with Ok ?x => exists x end end. split; vm_compute; reflexivity.
Qed.

(** The constructor allows NULL for any of the three objects, but printing then
    dereferences it. *)
Theorem C55_print_null_refuted : forall A fuel w a (l : list (sample A)) s',
  rw_run A fuel (rw_new A None w a) l = Ok s' -> rw_sections A s' = UB.
Proof.
  intros A fuel w a l s' E. assert (NG : is_group A None && is_group A w && is_group A a = false) by reflexivity. destruct (run_holds fuel _ _ _ _ _ NG E) as (Hr & _). cbn in Hr. injection Hr as Hr.
  unfold rw_sections. rewrite <- Hr. reflexivity.
Qed.
Print Assumptions C55_print_null_refuted.
