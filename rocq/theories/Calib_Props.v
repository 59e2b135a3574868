(** C114: calibrating the clock. *)
From Coq Require Import List Arith ZArith QArith Lia Lqa Bool Permutation Sorted ZifyBool ZifyNat ZifyN.
From Verif Require Import Common CommonFacts Arith Stats_Spec Stats_Model Stats_Proofs EMA_Proofs Calib_Model Calib_Spec.
Import ListNotations.
Local Open Scope nat_scope.

Definition real_number (x : xnum) : Prop := match x with NaN => False | _ => True end.
Lemma xle_total x y : real_number x -> real_number y -> xlt y x = false -> xle x y = true.
Proof. destruct x as [a|[]|], y as [b|[]|]; cbn; try easy. intros _ _ H. now apply negb_false_iff in H. Qed.
Lemma xlt_xle x y : xlt x y = true -> xle x y = true.
Proof. destruct x as [a|[]|], y as [b|[]|]; cbn; try easy. intros H. apply negb_true_iff in H. apply Qle_bool_iff. destruct (Qlt_le_dec b a) as [L|L]; [|exact L]. exfalso. assert (Q : (b <= a)%Q) by now apply Qlt_le_weak. apply Qle_bool_iff in Q. congruence. Qed.
Lemma xle_trans x y z : xle x y = true -> xle y z = true -> xle x z = true.
Proof. destruct x as [a|[]|], y as [b|[]|], z as [c|[]|]; cbn; try easy. rewrite !Qle_bool_iff. apply Qle_trans. Qed.
Lemma insert_perm x l : Permutation (insert x l) (x :: l).
Proof. induction l as [|y l IH]; cbn; [reflexivity|]. destruct (xlt y x); [|reflexivity]. rewrite IH. apply perm_swap. Qed.
Lemma sort_perm l : Permutation (sort l) l.
Proof. induction l as [|x l IH]; cbn; [reflexivity|]. rewrite insert_perm. now constructor. Qed.
Notation le x y := (xle x y = true).
Lemma insert_sorted x l : real_number x -> Forall real_number l -> StronglySorted (fun x y => le x y) l -> StronglySorted (fun x y => le x y) (insert x l).
Proof.
  intros Nx. induction l as [|y l IH]; intros N S; cbn [insert]; [repeat constructor|]. inversion_clear N as [|? ? Ny Nl]. inversion_clear S as [|? ? Sl Hy]. destruct (xlt y x) eqn:L.
  - constructor; [now apply IH|]. eapply Permutation_Forall; [symmetry; apply insert_perm|]. constructor; [now apply xlt_xle|exact Hy].
  - pose proof (xle_total x y Nx Ny L) as Q. constructor; [now constructor|]. constructor; [exact Q|]. eapply Forall_impl; [|exact Hy]. intros z Hz. eapply xle_trans; eauto.
Qed.
Lemma sort_sorted l : Forall real_number l -> StronglySorted (fun x y => le x y) (sort l).
Proof. induction l as [|x l IH]; intros N; cbn [sort]; [constructor|]. inversion_clear N. apply insert_sorted; [assumption| |auto]. eapply Permutation_Forall; [symmetry; apply sort_perm|assumption]. Qed.
Lemma sorted_app (a b : list xnum) : StronglySorted (fun x y => le x y) (a ++ b) -> StronglySorted (fun x y => le x y) b /\ forall x y, In x a -> In y b -> le x y.
Proof.
  induction a as [|z a IH]; cbn [app]; intros S; [split; [exact S|easy]|]. inversion_clear S as [|? ? Sl Hz]. destruct (IH Sl) as (Sb & H). split; [exact Sb|]. intros x y [-> |Hx] Hy; [|now apply H]. rewrite Forall_forall in Hz. apply Hz. apply in_or_app. now right.
Qed.
Lemma quarter n : n / 4 <= 3 * n / 4 /\ 3 * n / 4 <= n.
Proof. split; [apply Nat.div_le_mono; lia|]. apply Nat.div_le_upper_bound; lia. Qed.
Lemma truncated_middle l : Forall real_number l -> middle_half l (truncated (sort l)).
Proof.
  intros N. pose proof (quarter (length l)) as (Q1 & Q2). assert (Len : length (sort l) = length l) by (apply Permutation_length, sort_perm). unfold truncated. rewrite Len. set (lo := length l / 4) in *. set (hi := 3 * length l / 4) in *. set (s := sort l) in *.
  assert (E : s = firstn lo s ++ firstn (hi - lo) (skipn lo s) ++ skipn (hi - lo) (skipn lo s)) by now rewrite !firstn_skipn.
  exists (firstn lo s), (skipn (hi - lo) (skipn lo s)). split; [rewrite <- E; symmetry; apply sort_perm|]. split; [rewrite firstn_length; lia|]. split; [rewrite !firstn_length, skipn_length; lia|].
  pose proof (sort_sorted l N) as S. fold s in S. rewrite E in S. apply sorted_app in S as (S & H1). apply sorted_app in S as (_ & H2). split; assumption.
Qed.

Section P.
Variable confident : list xnum -> bool.
Variable target : Z.
Notation measured := (fun r o => measure target r = Ok o).

Lemma try_inv : forall script ms f tm e t, try_loop confident target script ms f tm e = Ok t -> f <= 128 -> (40 <= length ms -> confident tm = false) ->
  exists cur outs, script = cur ++ t_rest t /\ Forall2 measured cur outs /\ Permutation (t_ms t) (ms ++ succeeded outs) /\
  ((f + failures outs <= 128 /\ 40 <= length (t_ms t) /\ confident (t_trunc t) = true /\ exists l, t_ms t = sort l /\ t_trunc t = truncated (t_ms t))
   \/ (f + failures outs = 129 /\ (40 <= length (t_ms t) -> confident (t_trunc t) = false))).
Proof.
  induction script as [|r script IH]; intros ms f tm e t E Hf Hc; cbn [try_loop] in E; [discriminate|]. destruct (measure target r) as [[x|]| | |] eqn:Em; cbn [bind] in E; try discriminate.
  - cbn [andb] in E. set (ms1 := ms ++ [x]) in *. cbv zeta in E. destruct (40 <=? length ms1) eqn:En.
    + cbn [andb] in E. destruct (confident (truncated (sort ms1))) eqn:Ec.
      * injection E as <-. exists [r], [Some x]. cbn [t_rest t_ms t_trunc app]. split; [reflexivity|]. split; [repeat constructor; exact Em|]. split; [apply sort_perm|]. left. unfold failures. cbn. split; [lia|]. split; [rewrite (Permutation_length (sort_perm ms1)); lia|]. split; [exact Ec|]. now exists ms1.
      * apply IH in E; [|exact Hf|now intros _]. destruct E as (cur & outs & -> & F & P & C). exists (r :: cur), (Some x :: outs). split; [reflexivity|]. split; [now constructor|]. split; [rewrite P, sort_perm; unfold ms1, succeeded; cbn [flat_map]; now rewrite <- app_assoc|exact C].
    + cbn [andb] in E. apply IH in E; [|exact Hf|lia]. destruct E as (cur & outs & -> & F & P & C). exists (r :: cur), (Some x :: outs). split; [reflexivity|]. split; [now constructor|]. split; [rewrite P; unfold ms1, succeeded; cbn [flat_map]; now rewrite <- app_assoc|exact C].
  - cbn [andb] in E. destruct (Nat.ltb_spec 128 (S f)) as [L|L].
    + injection E as <-. exists [r], [None]. cbn [t_rest t_ms t_trunc app]. split; [reflexivity|]. split; [repeat constructor; exact Em|]. split; [unfold succeeded; cbn; now rewrite app_nil_r|]. right. unfold failures. cbn. split; [lia|exact Hc].
    + cbv zeta in E. destruct (40 <=? length ms) eqn:En.
      * cbn [andb] in E. destruct (confident (truncated (sort ms))) eqn:Ec.
        -- injection E as <-. exists [r], [None]. cbn [t_rest t_ms t_trunc app]. split; [reflexivity|]. split; [repeat constructor; exact Em|]. split; [unfold succeeded; cbn; rewrite app_nil_r; apply sort_perm|]. left. unfold failures. cbn. split; [lia|]. split; [rewrite (Permutation_length (sort_perm ms)); lia|]. split; [exact Ec|]. now exists ms.
        -- apply IH in E; [|lia|now intros _]. destruct E as (cur & outs & -> & F & P & C). exists (r :: cur), (None :: outs). split; [reflexivity|]. split; [now constructor|]. split; [rewrite P, sort_perm; reflexivity|]. unfold failures in *. cbn [filter length] in *. replace (f + S (length (filter (fun o => match o with Some _ => false | None => true end) outs))) with (S f + length (filter (fun o => match o with Some _ => false | None => true end) outs)) by lia. exact C.
      * cbn [andb] in E. apply IH in E; [|lia|lia]. destruct E as (cur & outs & -> & F & P & C). exists (r :: cur), (None :: outs). split; [reflexivity|]. split; [now constructor|]. split; [exact P|]. unfold failures in *. cbn [filter length] in *. replace (f + S (length (filter (fun o => match o with Some _ => false | None => true end) outs))) with (S f + length (filter (fun o => match o with Some _ => false | None => true end) outs)) by lia. exact C.
Qed.
Definition good_try (script : list reading) (avg : list xnum) : Prop :=
  exists before cur after outcomes, script = before ++ cur ++ after /\ Forall2 measured cur outcomes /\
    40 <= length (succeeded outcomes) /\ failures outcomes <= 128 /\ (Forall real_number (succeeded outcomes) -> middle_half (succeeded outcomes) avg) /\ incl avg (succeeded outcomes) /\
    length avg = 3 * length (succeeded outcomes) / 4 - length (succeeded outcomes) / 4 /\ confident avg = true.
Lemma middle_perm l l' m : Permutation l l' -> middle_half l m -> middle_half l' m.
Proof. intros P (a & b & Q & H). exists a, b. rewrite <- (Permutation_length P). split; [now rewrite <- P|exact H]. Qed.
Lemma tries_good : forall n script tm e avg, all_tries confident target n script tm e = Ok (Some avg) -> good_try script avg.
Proof.
  induction n as [|n IH]; intros script tm e avg E; cbn [all_tries] in E; [discriminate|]. destruct (try_loop confident target script [] 0 tm e) as [t| | |] eqn:Et; cbn [bind] in E; try discriminate.
  apply try_inv in Et; [|lia|cbn; lia]. destruct Et as (cur & outs & -> & F & P & C). cbn [app Nat.add] in *.
  assert (More : all_tries confident target n (t_rest t) (t_trunc t) (t_errors t) = Ok (Some avg) -> good_try (cur ++ t_rest t) avg).
  { intros X. apply IH in X as (b & c & a & o & -> & X). exists (cur ++ b), c, a, o. now rewrite app_assoc. }
  destruct (Nat.ltb_spec (length (t_ms t)) 40) as [L|L]; [now apply More|]. destruct (confident (t_trunc t)) eqn:Ec; [|now apply More]. injection E as <-.
  destruct C as [(Hf & Hl & _ & l & Es & Etr)|(_ & C)]; [|specialize (C L); congruence].
  exists [], cur, (t_rest t), outs. split; [reflexivity|]. split; [exact F|]. rewrite <- (Permutation_length P). split; [exact Hl|]. split; [exact Hf|].
  assert (Pl : Permutation l (succeeded outs)) by (rewrite <- P, Es; symmetry; apply sort_perm).
  assert (Ll : length (t_ms t) = length l) by (rewrite Es; apply Permutation_length, sort_perm).
  split; [|split; [|split; [|exact Ec]]].
  - intros N. rewrite Etr, Es. eapply middle_perm; [exact Pl|]. apply truncated_middle. eapply Permutation_Forall; [symmetry; exact Pl|exact N].
  - intros x Hx. rewrite Etr in Hx. unfold truncated in Hx. assert (In x (t_ms t)) by (rewrite <- (firstn_skipn (length (t_ms t) / 4) (t_ms t)); apply in_or_app; right; rewrite <- (firstn_skipn (3 * length (t_ms t) / 4 - length (t_ms t) / 4) (skipn _ _)); apply in_or_app; now left). eapply Permutation_in; [exact P|assumption].
  - rewrite Etr. unfold truncated. rewrite firstn_length, skipn_length. pose proof (quarter (length (t_ms t))). lia.
Qed.
End P.

(** If calibrating succeeds, the rate is the mean of the middle half of at least 40
    measurements taken one after another, with at most 128 failures among them, for which
    the confidence interval was narrow enough; it is above 200 MHz and reading the time is
    fast enough. *)
Theorem C114_rate : forall confident target max_measure script rate,
  (forall r, In r script -> measure target r <> Ok (Some NaN)) ->
  calibrate confident target max_measure script = Ok rate ->
  exists before cur after outcomes avg, script = before ++ cur ++ after /\
    Forall2 (fun r o => measure target r = Ok o) cur outcomes /\
    40 <= length (succeeded outcomes) /\ failures outcomes <= 128 /\
    middle_half (succeeded outcomes) avg /\ confident avg = true /\ rate = mean_of avg /\
    xlt (Fin 200) rate = true /\ xlt (Fin (inject_Z max_measure)) (xmul (Fin 100) rate) = true.
Proof.
  intros confident target mx script rate NN E. unfold calibrate in E. destruct (all_tries confident target 10 script [] 0) as [[avg|]| | |] eqn:Et; cbn [bind] in E; try discriminate.
  destruct (xlt (Fin (inject_Z mx)) _) eqn:E1; cbn [invariant bind] in E; [|discriminate]. destruct (xlt (Fin 200) _) eqn:E2; cbn [invariant bind] in E; [|discriminate]. injection E as <-.
  apply tries_good in Et as (b & c & a & o & -> & F & H1 & H2 & H3 & _ & _ & H4). exists b, c, a, o, avg. repeat (split; [reflexivity || assumption|]). split; [|now repeat split].
  apply H3. apply Forall_forall. intros x Hx. unfold succeeded in Hx. apply in_flat_map in Hx as ([y|] & Hy & Q); [|easy]. destruct Q as [<-|[]]. destruct y; cbn; trivial. apply (In_nth_error o) in Hy as (i & Hi). destruct (Forall2_nth_r _ _ _ _ _ F Hi) as (r & Hr & Em). apply (NN r); [apply in_or_app; right; apply in_or_app; left; eapply nth_error_In; eauto|exact Em].
Qed.
Print Assumptions C114_rate.

(** The rate is between bounds that hold for every single measurement. *)
Theorem C114_between : forall confident target max_measure script rate lo hi,
  (forall r x, In r script -> measure target r = Ok (Some x) -> exists q, x = Fin q /\ lo <= q <= hi)%Q ->
  (Z.of_nat (length script) < 2 ^ 64)%Z ->
  calibrate confident target max_measure script = Ok rate -> exists q, rate = Fin q /\ (lo <= q <= hi)%Q.
Proof.
  intros confident target mx script rate lo hi HB HL E. unfold calibrate in E. destruct (all_tries confident target 10 script [] 0) as [[avg|]| | |] eqn:Et; cbn [bind] in E; try discriminate.
  destruct (xlt (Fin (inject_Z mx)) _) eqn:E1; cbn [invariant bind] in E; [|discriminate]. destruct (xlt (Fin 200) _) eqn:E2; cbn [invariant bind] in E; [|discriminate]. injection E as <-.
  apply tries_good in Et as (b & c & a & o & -> & F & H1 & H2 & _ & HI & HA & _).
  assert (X : exists qs, avg = map Fin qs /\ forall q, In q qs -> (lo <= q <= hi)%Q).
  { assert (Y : forall x, In x avg -> exists q, x = Fin q /\ (lo <= q <= hi)%Q).
    { intros x Hx. apply HI in Hx. unfold succeeded in Hx. apply in_flat_map in Hx as ([y|] & Hy & Q); [|easy]. destruct Q as [<-|[]]. apply (In_nth_error o) in Hy as (i & Hi). destruct (Forall2_nth_r _ _ _ _ _ F Hi) as (r & Hr & Em). apply (HB r); [apply in_or_app; right; apply in_or_app; left; eapply nth_error_In; eauto|exact Em]. }
    clear - Y. induction avg as [|x avg IH]; [now exists []|]. destruct IH as (qs & -> & Q); [intros y Hy; apply Y; now right|]. destruct (Y x (or_introl eq_refl)) as (q & -> & Hq). exists (q :: qs). split; [reflexivity|]. intros q' [<-|I]; [exact Hq|now apply Q]. }
  destruct X as (qs & -> & Q). rewrite map_length in HA.
  assert (LS : length (succeeded o) <= length c). { rewrite (Forall2_length' _ _ _ F). clear. induction o as [|[x|] o IH]; unfold succeeded in *; cbn [flat_map app length]; lia. }
  rewrite !app_length in HL.
  assert (NZ : qs <> []). { intros ->. cbn [length] in HA. assert (length (succeeded o) / 4 < 3 * length (succeeded o) / 4); [|lia]. apply Nat.lt_le_trans with (m := (length (succeeded o) + 4) / 4); [replace (length (succeeded o) + 4) with (length (succeeded o) + 1 * 4) by lia; rewrite Nat.div_add by lia; lia|]. apply Nat.div_le_mono; lia. }
  assert (R : Rep (fold_left (st_add exact) (map Fin qs) (st_new exact)) qs).
  { assert (G : forall l s l0, Rep s l0 -> Rep (fold_left (st_add exact) (map Fin l) s) (l0 ++ l)). { induction l as [|x l IH]; intros s l0 R; cbn [map fold_left]; [now rewrite app_nil_r|]. replace (l0 ++ x :: l) with ((l0 ++ [x]) ++ l) by now rewrite <- app_assoc. apply IH. now apply Rep_add. } exact (G qs (st_new exact) [] Rep_new). }
  destruct (Rep_mean _ _ R) as (q & Em & Eq); [|exact NZ|].
  - pose proof (quarter (length (succeeded o))). lia.
  - exists q. split; [exact Em|]. rewrite Eq. apply qmean_between; [exact NZ|]. intros x Hx. now apply Q.
Qed.
Print Assumptions C114_between.

Lemma wait_inv a stop : forall more c0 c, wait_cycles a stop c0 more = Ok c -> exists pre post, c0 :: more = pre ++ c :: post /\ (forall x, In x pre -> a < x < stop)%Z /\ ~ (a < c < stop)%Z.
Proof.
  induction more as [|x more IH]; intros c0 c E; cbn [wait_cycles] in E; destruct ((a <? c0) && (c0 <? stop))%Z eqn:Q; try discriminate.
  - injection E as <-. exists [], []. split; [reflexivity|]. split; [easy|lia].
  - destruct (IH _ _ E) as (pre & post & -> & H & N). exists (c0 :: pre), post. split; [reflexivity|]. split; [|exact N]. intros y [<-|I]; [lia|now apply H].
  - injection E as <-. exists [], (x :: more). split; [reflexivity|]. split; [easy|lia].
Qed.
(** A measurement waits for the first reading of the counter that is not below the target,
    or went back, and fails exactly if it went back or is over the target by more than 10000. *)
Theorem C114_useful : forall target rd o,
  (0 <= rd_a rd)%Z -> (0 <= target)%Z -> (rd_a rd + target < 2 ^ 64)%Z -> (forall x, In x (rd_b rd :: rd_wait rd) -> 0 <= x < 2 ^ 64)%Z ->
  measure target rd = Ok o ->
  exists pre c post, rd_b rd :: rd_wait rd = pre ++ c :: post /\
    (forall x, In x pre -> rd_a rd < x < rd_a rd + target)%Z /\ ~ (rd_a rd < c < rd_a rd + target)%Z /\
    (o = None <-> (c <= rd_a rd \/ rd_a rd + target + 10000 < c)%Z).
Proof.
  intros target rd o Ha Ht Hs Hr E. unfold measure, w64 in E. rewrite (Z.mod_small (rd_a rd + target)) in E by lia. destruct (wait_cycles _ _ _ _) as [c| | |] eqn:W; cbn [bind] in E; try discriminate. apply wait_inv in W as (pre & post & Q & H & N). exists pre, c, post. split; [exact Q|]. split; [exact H|]. split; [exact N|].
  assert (Hc : (0 <= c < 2 ^ 64)%Z) by (apply Hr; rewrite Q; apply in_or_app; right; now left).
  destruct (Z.leb_spec c (rd_a rd)) as [L|L]; cbn [orb] in E; [injection E as <-; split; [intros _; now left|reflexivity]|]. rewrite (Z.mod_small (c - _)) in E by lia.
  destruct (Z.ltb_spec 10000 (c - (rd_a rd + target))); injection E as <-; (split; [intros X; try discriminate X; lia|]); [reflexivity|lia].
Qed.
Print Assumptions C114_useful.

(** How good one measurement is: if the counter runs at [r] cycles per microsecond and the
    time of day is read exactly at some moment between the readings of the counter around
    it, the error times the length is at most half of the two gaps and a cycle. *)
Theorem C114_measure : forall target rd c r,
  (0 <= rd_a rd)%Z -> (rd_a rd <= rd_b rd)%Z -> (c <= rd_d rd)%Z -> (rd_b rd <= c)%Z -> (2 * rd_d rd < 2 ^ 64)%Z -> (0 <= rd_start rd < rd_end rd)%Z -> (rd_end rd < 2 ^ 64)%Z ->
  wait_cycles (rd_a rd) ((rd_a rd + target) mod 2 ^ 64) (rd_b rd) (rd_wait rd) = Ok c ->
  let us t := (inject_Z t * 1000000 / 4294967296)%Q in
  (inject_Z (rd_a rd) <= r * us (rd_start rd) <= inject_Z (rd_b rd))%Q ->
  (inject_Z c <= r * us (rd_end rd) <= inject_Z (rd_d rd))%Q ->
  measure target rd = Ok None \/
  exists q, measure target rd = Ok (Some (Fin q)) /\
    let err := ((inject_Z (rd_b rd - rd_a rd) + inject_Z (rd_d rd - c)) / 2 + 1)%Q in
    (- err <= (q - r) * (us (rd_end rd) - us (rd_start rd)) <= err)%Q.
Proof.
  intros target rd c r Ha Hab Hcd Hbc Hd Ht He W us H1 H2. unfold measure. unfold w64. rewrite W. cbn [bind]. destruct ((c <=? rd_a rd) || (10000 <? (c - (rd_a rd + target) mod 2 ^ 64) mod 2 ^ 64))%Z; [now left|right].
  rewrite (Z.mod_small (rd_a rd + rd_b rd)), (Z.mod_small (c + rd_d rd)), (Z.mod_small (rd_end rd - rd_start rd)) by lia.
  set (s := ((rd_a rd + rd_b rd) / 2)%Z). set (e := ((c + rd_d rd) / 2)%Z).
  assert (Hs : (2 * s <= rd_a rd + rd_b rd <= 2 * s + 1)%Z) by (unfold s; pose proof (Z.div_mod (rd_a rd + rd_b rd) 2); pose proof (Z.mod_pos_bound (rd_a rd + rd_b rd) 2); lia).
  assert (Hee : (2 * e <= c + rd_d rd <= 2 * e + 1)%Z) by (unfold e; pose proof (Z.div_mod (c + rd_d rd) 2); pose proof (Z.mod_pos_bound (c + rd_d rd) 2); lia).
  rewrite (Z.mod_small (e - s)) by lia. set (len := (1000000 * (inject_Z (rd_end rd - rd_start rd) / inject_Z 4294967296))%Q).
  assert (P : (0 < len)%Q). { unfold len. assert (0 < inject_Z (rd_end rd - rd_start rd))%Q by (unfold Qlt; cbn; lia). setoid_replace (1000000 * (inject_Z (rd_end rd - rd_start rd) / inject_Z 4294967296))%Q with (inject_Z (rd_end rd - rd_start rd) * (1000000 / 4294967296))%Q by (field). apply Qmult_lt_0_compat; [assumption|reflexivity]. }
  cbn [xdiv]. destruct (Qeq_bool len 0) eqn:Z0; [apply Qeq_bool_iff in Z0; lra|]. eexists. split; [reflexivity|]. cbv zeta.
  assert (L : (us (rd_end rd) - us (rd_start rd) == len)%Q). { unfold us, len. unfold Zminus. rewrite inject_Z_plus, inject_Z_opp. field. }
  assert (E : ((inject_Z (e - s) / len - r) * (us (rd_end rd) - us (rd_start rd)) == inject_Z (e - s) - r * us (rd_end rd) + r * us (rd_start rd))%Q).
  { setoid_replace ((inject_Z (e - s) / len - r) * (us (rd_end rd) - us (rd_start rd)))%Q with (inject_Z (e - s) / len * (us (rd_end rd) - us (rd_start rd)) - r * us (rd_end rd) + r * us (rd_start rd))%Q by ring. rewrite L. field. lra. }
  rewrite E. clear E L Z0 P len. revert H1 H2. generalize (r * us (rd_start rd))%Q (r * us (rd_end rd))%Q. intros u v (U1 & U2) (V1 & V2).
  assert (S1 : (2 * inject_Z s <= inject_Z (rd_a rd) + inject_Z (rd_b rd) <= 2 * inject_Z s + 1)%Q). { change 2%Q with (inject_Z 2). change 1%Q with (inject_Z 1). rewrite <- inject_Z_mult, <- !inject_Z_plus, <- !Zle_Qle. lia. }
  assert (S2 : (2 * inject_Z e <= inject_Z c + inject_Z (rd_d rd) <= 2 * inject_Z e + 1)%Q). { change 2%Q with (inject_Z 2). change 1%Q with (inject_Z 1). rewrite <- inject_Z_mult, <- !inject_Z_plus, <- !Zle_Qle. lia. }
  unfold Zminus. rewrite !inject_Z_plus, !inject_Z_opp. set (A := inject_Z (rd_a rd)) in *. set (B := inject_Z (rd_b rd)) in *. set (C := inject_Z c) in *. set (D := inject_Z (rd_d rd)) in *. set (SS := inject_Z s) in *. set (EE := inject_Z e) in *.
  setoid_replace ((B + - A + (D + - C)) / 2 + 1)%Q with ((B - A) * (1#2) + (D - C) * (1#2) + 1)%Q by field. split; lra.
Qed.
Print Assumptions C114_measure.

(** If 400 measurements are always enough for the confidence asked for, calibrating ends,
    with a rate or by stopping the program, after ten times 529 of them at most. *)
Lemma try_ends confident target : (forall l, 200 <= length l -> confident l = true) -> forall script ms f tm e, (forall r, In r script -> exists o, measure target r = Ok o) ->
  f <= 128 -> length ms < 400 -> (128 - f) + (400 - length ms) < length script ->
  exists t, try_loop confident target script ms f tm e = Ok t /\ length script <= length (t_rest t) + 1 + (128 - f) + (400 - length ms).
Proof.
  intros HC. induction script as [|r script IH]; intros ms f tm e HM Hf Hm HL; cbn [length] in HL; [lia|]. cbn [try_loop]. destruct (HM r (or_introl eq_refl)) as (o & Eo). rewrite Eo. cbn [bind].
  assert (HM' : forall r, In r script -> exists o, measure target r = Ok o) by (intros; apply HM; now right).
  destruct o as [x|]; cbn [andb].
  - cbv zeta. assert (L1 : length (ms ++ [x]) = S (length ms)) by (rewrite app_length; cbn; lia). destruct (Nat.leb_spec 40 (length (ms ++ [x]))) as [En|En].
    + cbn [andb]. destruct (confident (truncated (sort (ms ++ [x])))) eqn:Ec; [eexists; split; [reflexivity|cbn; lia]|].
      assert (Ls : length (sort (ms ++ [x])) = S (length ms)) by (rewrite (Permutation_length (sort_perm _)); exact L1).
      assert (Hlt : S (length ms) < 400).
      { destruct (Nat.eq_dec (S (length ms)) 400) as [E4|]; [|lia]. rewrite HC in Ec; [discriminate|]. unfold truncated. rewrite firstn_length, skipn_length, Ls, E4. cbv. lia. }
      destruct (IH (sort (ms ++ [x])) f (truncated (sort (ms ++ [x]))) (if 400 <=? length (sort (ms ++ [x])) then S e else e) HM' Hf) as (t & Et & Q); [rewrite Ls; exact Hlt|rewrite Ls; lia|]. exists t. split; [exact Et|]. rewrite Ls in Q. cbn [length]. lia.
    + cbn [andb]. destruct (IH (ms ++ [x]) f tm (if 400 <=? length (ms ++ [x]) then S e else e) HM' Hf) as (t & Et & Q); [lia|lia|]. exists t. split; [exact Et|]. cbn [length]. lia.
  - destruct (Nat.ltb_spec 128 (S f)) as [L|L]; [eexists; split; [reflexivity|cbn; lia]|]. cbv zeta. destruct (Nat.leb_spec 40 (length ms)) as [En|En].
    + cbn [andb]. destruct (confident (truncated (sort ms))) eqn:Ec; [eexists; split; [reflexivity|cbn; lia]|]. assert (Ls : length (sort ms) = length ms) by apply (Permutation_length (sort_perm _)).
      destruct (IH (sort ms) (S f) (truncated (sort ms)) (if 400 <=? length (sort ms) then S e else e) HM') as (t & Et & Q); [lia|lia|rewrite Ls; lia|]. exists t. split; [exact Et|]. rewrite Ls in Q. cbn [length]. lia.
    + cbn [andb]. destruct (IH ms (S f) tm (if 400 <=? length ms then S e else e) HM') as (t & Et & Q); [lia|lia|lia|]. exists t. split; [exact Et|]. cbn [length]. lia.
Qed.
Theorem C114_ends_partial : forall confident target max_measure script,
  (forall l, 200 <= length l -> confident l = true) -> (forall r, In r script -> exists o, measure target r = Ok o) ->
  10 * 529 <= length script -> calibrate confident target max_measure script = Abort \/ exists rate, calibrate confident target max_measure script = Ok rate.
Proof.
  intros confident target mx script HC HM HL. unfold calibrate.
  assert (X : forall n script tm e, (forall r, In r script -> exists o, measure target r = Ok o) -> n * 529 <= length script -> exists o, all_tries confident target n script tm e = Ok o).
  { clear script HM HL. induction n as [|n IH]; intros script tm e HM HL; cbn [all_tries]; [now exists None|]. destruct (try_ends confident target HC script [] 0 tm e HM) as (t & Et & Q); [lia|cbn; lia|cbn [length]; lia|]. rewrite Et. cbn [bind]. cbn [length] in Q.
    assert (HM' : forall r, In r (t_rest t) -> exists o, measure target r = Ok o). { apply try_inv in Et; [|lia|cbn; lia]. destruct Et as (cur & outs & -> & _). intros r Hr. apply HM. apply in_or_app. now right. }
    assert (HL' : n * 529 <= length (t_rest t)) by lia. destruct (length (t_ms t) <? 40); [now apply IH|]. destruct (confident (t_trunc t)); [eexists; reflexivity|now apply IH]. }
  destruct (X 10 script [] 0 HM HL) as (o & ->). cbn [bind]. destruct o as [tm|]; [|now left]. destruct (xlt (Fin (inject_Z mx)) _); cbn [invariant bind]; [|now left]. destruct (xlt (Fin 200) _); cbn [invariant bind]; [right; eexists; reflexivity|now left].
Qed.
Print Assumptions C114_ends_partial.

(** Otherwise it may never end: after 400 measurements the code says it tries again, but it
    goes on measuring; if no measurement fails, no number of readings is enough. *)
Theorem C114_ends_refuted : forall confident target max_measure script,
  (forall l, confident l = false) -> (forall r, In r script -> exists x, measure target r = Ok (Some x)) ->
  calibrate confident target max_measure script = Fuel.
Proof.
  intros confident target mx script HC HM. unfold calibrate. cbn [all_tries].
  assert (X : forall script ms f tm e, (forall r, In r script -> exists x, measure target r = Ok (Some x)) -> try_loop confident target script ms f tm e = Fuel).
  { clear script HM. induction script as [|r script IH]; intros ms f tm e HM; cbn [try_loop]; [reflexivity|]. destruct (HM r (or_introl eq_refl)) as (x & ->). cbn [bind andb]. cbv zeta. rewrite HC, andb_false_r. apply IH. intros r' Hr'. apply HM. now right. }
  now rewrite X.
Qed.
Print Assumptions C114_ends_refuted.

(** A counter of 1000 MHz: 60 readings of about 25 us, one of them late. *)
Definition ex_rd (k : Z) (late : Z) : reading := Reading (1000000 * k) (4294967296 * k / 1000) (1000000 * k + 100) [1000000 * k + 12000; 1000000 * k + 25050 + late]%Z (4294967296 * (1000000 * k + 25050 + late) / 1000000000) (1000000 * k + 25150 + late).
Definition ex_script : list reading := map (fun k => ex_rd (Z.of_nat k) (if k =? 7 then 50000 else 0)) (seq 1 60).
Definition ex_conf (l : list xnum) : bool := forallb (fun x => xlt x (Fin 1010) && xlt (Fin 990) x) l.
Example C114_ex :
  (match calibrate ex_conf 25000 200 ex_script with Ok (Fin q) => Qle_bool 990 q && Qle_bool q 1010 | _ => false end) = true /\
  measure 25000 (ex_rd 7 50000) = Ok None /\
  match calibrate (fun _ => false) 25000 200 ex_script with Fuel => true | _ => false end = true /\
  calibrate ex_conf 25000 200 (map (fun k => ex_rd (Z.of_nat k) 50000) (seq 1 1290)) = Abort.
Proof. repeat split; vm_compute; reflexivity. Qed.
