(** Property C79: the cycle-counter clock. *)
From Coq Require Import List ZArith Reals Lra Lia Psatz Bool.
From Coq Require Import ZifyBool ZifyNat.
From Flocq Require Import Core BinarySingleNaN.
From Verif Require Import Common Double64 Clock_Model Clock_Proofs ClockCC_Model ClockCC_Spec ClockCC_Proofs ClockCC_Runs ClockCC_Default.
Import ListNotations.
Local Open Scope Z_scope.

(** Whatever a machine answers and measures, and however often intervals are set and clocks are made,
    nothing undefined happens: every conversion of a double to an integer fits. *)
Theorem C79_safe_partial (ops : list cc_op) : Forall sensible ops -> calibrates_first ops ->
  cc_run ops cc0 = Abort \/ exists s l, cc_run ops cc0 = Ok (s, l).
Proof.
  intros F C. destruct (run_good ops cc0 (good_start ops C) F) as [A|(s & l & E & _)]; eauto.
Qed.
Print Assumptions C79_safe_partial.

(** A machine at 1000 MHz for the examples; frequency scaling is not possible. *)
Definition ghz : measured := Measured false 5000 (Some (of_Z 1000)).
Definition r1 : readings := Readings (2 ^ 40) (2 ^ 40 + 100) (2 ^ 62) (2 ^ 40 + 1100).
Definition r2 : readings := Readings (2 ^ 40 + 999000) (2 ^ 40 + 999000) (2 ^ 62 + 4247000) (2 ^ 40 + 1000000).
Definition r3 : readings := Readings (2 ^ 40 + 1001000) (2 ^ 40 + 1001000) (2 ^ 62 + 4252000) (2 ^ 40 + 1002000).
Definition answers (x : res (cc_state * list (readings * (Z * bool)))) : option (list (Z * bool)) :=
  match x with Ok (_, l) => Some (map snd l) | _ => None end.
Definition day : list cc_op := [Calibrate ghz; New false ghz; Now r1; Now r2; Now r3].
Example C79_run_case : answers (cc_run day cc0) = Some [(2 ^ 62, true); (2 ^ 62 + 4288095, false); (2 ^ 62 + 4252000, true)] /\
  Forall sensible day /\ calibrates_first day /\ Forall ordinary day.
Proof.
  split; [vm_compute; reflexivity|]. split; [repeat (constructor; [cbn; unfold machine, word; cbn; repeat split; discriminate|]); constructor|].
  split; [left; exists [], ghz; eexists; reflexivity|]. unfold day. repeat (constructor; [cbn; try exact I; split; (discriminate || reflexivity)|]). constructor.
Qed.

(** Between two times of day the clock never runs backwards: an answer for which gettimeofday was not
    called is not before the answer given before it, and there is one before it. *)
Theorem C79_steady (ops : list cc_op) (s : cc_state) (l : list (readings * (Z * bool))) :
  Forall sensible ops -> calibrates_first ops -> Forall ordinary ops ->
  cc_run ops cc0 = Ok (s, l) -> steady None l.
Proof.
  intros F C O E. pose proof (good_start ops C) as G.
  assert (A : anchored None cc0) by (intros c X; discriminate X).
  generalize dependent (@None Z). generalize dependent cc0. clear C. revert s l.
  induction ops as [|o ops IH]; intros s l s0 E G prev A.
  - injection E as <- <-. exact I.
  - inversion F as [|? ? F1 F2]; inversion O as [|? ? O1 O2]; subst. cbn [cc_run] in E.
    destruct (good_step s0 o ops G F1) as [X|(s1 & a & E1 & G')]; [rewrite X in E; discriminate E|]. rewrite E1 in E. cbn [bind] in E.
    destruct (cc_run ops s1) as [[s2 l2]| | |] eqn:E2; cbn in E; try discriminate E. injection E as <- <-.
    destruct (anchored_step prev s0 o s1 a (proj1 G) F1 O1 A E1 (proj1 G')) as (A' & St).
    specialize (IH F2 O2 s2 l2 s1 E2 G' _ A').
    destruct o as [m|m|a' m|x|r]; cbn [cc_step] in E1.
    + injection E1 as <- <-. exact IH.
    + destruct (calibrateClock _ _); cbn in E1; try discriminate E1. injection E1 as <- <-. exact IH.
    + destruct (newClock _ _ _) as [[g c]| | |]; cbn in E1; try discriminate E1. injection E1 as <- <-. exact IH.
    + destruct (obj s0); [destruct (setRecalibrateIntervalSeconds _ _ _); cbn in E1; try discriminate E1|]; injection E1 as <- <-; exact IH.
    + destruct (obj s0) as [c|]; [|injection E1 as <- <-; exact IH]. destruct (todccTfrac _ _ _) as [[[t b] c']| | |]; cbn in E1; try discriminate E1. injection E1 as <- <-.
      cbn. split; [|exact IH]. intros ->. now apply St.
Qed.
Print Assumptions C79_steady.
(** The hypotheses are met by [day], whose second answer did not ask. *)
Example C79_steady_case : steady None [(r1, (2 ^ 62, true)); (r2, (2 ^ 62 + 4288095, false)); (r3, (2 ^ 62 + 4252000, true))].
Proof. cbn. split; [discriminate|]. split; [intros _; exists (2 ^ 62); split; [reflexivity|lia]|]. split; [discriminate|exact I]. Qed.

(** An answer for which the time of day was asked is that time. Every other answer is the true time,
    up to the quantum of gettimeofday, the time one calibration may take, the error of the clock rate
    over one recalibration interval, and two Tfracs. *)
Theorem C79_accurate (w : world) (ops : list cc_op) (s : cc_state) (l : list (readings * (Z * bool))) (r : readings) (c c' : clock) (t : Z) (asked : bool) :
  Forall sensible (ops ++ [Now r]) -> calibrates_first ops -> Forall ordinary (ops ++ [Now r]) ->
  Forall (honest w) ops -> (0 <= w_per_cycle w)%R ->
  cc_run ops cc0 = Ok (s, l) -> obj s = Some c -> todccTfrac (glob s) c r = Ok (t, asked, c') ->
  if asked then t = r_tod r else
  (Rabs (IZR t - true_time w (IZR (r_cc r))) <=
     w_quantum w + w_per_cycle w * IZR (max_recalibrate_measure_time (glob s))
     + Rabs (B2R (inverse_clock_rate_tfrac (glob s)) - w_per_cycle w) * IZR (recalibrate_interval_cycles c) + 2)%R.
Proof.
  intros F C O H W E Eo X. apply Forall_app in F as (F & Fr). apply Forall_app in O as (O & Or).
  inversion Fr as [|? ? Fr1 _]; inversion Or as [|? ? Or1 _]; subst. cbn in Fr1, Or1.
  assert (FQ : Forall (fun o => honest w o /\ ordinary o) ops) by (apply Forall_forall; intros o Io; rewrite Forall_forall in H, O; auto).
  assert (N0 : near w cc0) by (intros c0 X0; discriminate X0).
  destruct (run_inv (near w) (fun o => honest w o /\ ordinary o)
    (fun s o s' a S1 S2 S3 S4 S5 S6 => near_step w s o s' a W S1 S2 S3 S4 S5 S6) ops cc0 s l (good_start ops C) F FQ N0 E) as (P & S).
  pose proof (proj2 S c Eo) as Ck. destruct Ck as [(N & Fi & Hi & HI & W1 & W2 & W3)|(T & Ec)].
  - assert (Ck : clock_ok (glob s) c) by (now apply S).
    pose proof (now_cases s c r t asked c' S Eo N Fr1 X) as K. destruct K as [A Sl|A L|A NS L L1 L2|A d L Hd]; try reflexivity.
    destruct (P c Eo N) as [Z|(B1 & B2 & B3)].
    { exfalso. rewrite (asks_reset (glob s) c r Ck N) in A; [discriminate A|tauto|exact Fr1|exact Z]. }
    destruct Fr1 as (M1 & _). unfold word in *.
    assert (Dd : d = r_cc r - last_recalibrate_cc c) by (unfold d; rewrite Z.mod_small by lia; reflexivity).
    destruct (est_ok (glob s) (recalibrate_interval_cycles c) d N Fi Hd) as (_ & E2 & E3); [lia|exact HI|].
    rewrite Z.mod_small by lia. rewrite plus_IZR. set (e := IZR (est (glob s) d)) in *. set (ic := B2R (inverse_clock_rate_tfrac (glob s))) in *.
    set (tod := IZR (last_calibrate_tod_tfrac c)) in *. set (q := (w_quantum w + _)%R) in *.
    assert (Tr : true_time w (IZR (r_cc r)) = (true_time w (IZR (last_recalibrate_cc c)) + w_per_cycle w * IZR d)%R) by (unfold true_time; rewrite Dd, minus_IZR; ring).
    rewrite Tr. set (t0 := true_time w (IZR (last_recalibrate_cc c))) in *.
    replace (tod + e - (t0 + w_per_cycle w * IZR d))%R with ((tod - t0) + ((ic - w_per_cycle w) * IZR d + (e - IZR d * ic)))%R by ring.
    eapply Rle_trans; [apply Rabs_triang|]. assert (Y : (Rabs ((ic - w_per_cycle w) * IZR d + (e - IZR d * ic)) <= Rabs (ic - w_per_cycle w) * IZR (recalibrate_interval_cycles c) + 2)%R).
    { eapply Rle_trans; [apply Rabs_triang|]. apply Rplus_le_compat; [|apply Rabs_le; lra]. rewrite Rabs_mult.
      assert (D0 : (0 <= IZR d <= IZR (recalibrate_interval_cycles c))%R) by (split; apply IZR_le; lia). rewrite (Rabs_pos_eq (IZR d)) by lra. apply Rmult_le_compat_l; [apply Rabs_pos|lra]. }
    lra.
  - rewrite (now_tod (glob s) c r T Ec Fr1) in X. injection X as <- <- <-. reflexivity.
Qed.
Print Assumptions C79_accurate.
(** With the default interval and a clock rate that is right within one per cent (f is the true rate in
    MHz), every answer that did not ask is within 112 microseconds of the true time, on top of the
    quantum of gettimeofday. *)
Theorem C79_default_accurate (w : world) (f : R) (ops : list cc_op) (s : cc_state) (l : list (readings * (Z * bool))) (r : readings) (c c' : clock) (t : Z) :
  Forall sensible (ops ++ [Now r]) -> calibrates_first ops -> Forall ordinary (ops ++ [Now r]) ->
  Forall (honest w) ops -> (forall x, ~ In (SetInterval x) ops) ->
  (0 < f)%R -> w_per_cycle w = (IZR (2 ^ 32) / 1000000 / f)%R ->
  cc_run ops cc0 = Ok (s, l) -> obj s = Some c -> (Rabs (B2R (clock_rate (glob s)) - f) <= f / 100)%R ->
  todccTfrac (glob s) c r = Ok (t, false, c') ->
  (Rabs (IZR t - true_time w (IZR (r_cc r))) <= w_quantum w + IZR (2 ^ 32) * (112 / 1000000))%R.
Proof.
  intros F C O H NI Hf Hw E Eo Hr X.
  assert (W : (0 <= w_per_cycle w)%R) by (rewrite Hw; change (IZR (2 ^ 32)) with 4294967296%R; apply Rlt_le, Rdiv_lt_0_compat; lra).
  pose proof (C79_accurate w ops s l r c c' t false F C O H W E Eo X) as A. cbv iota in A.
  apply Forall_app in F as (F & Fr). inversion Fr as [|? ? Fr1 _]; subst. cbn in Fr1.
  assert (FQ : Forall keeps_interval ops) by (apply Forall_forall; intros o Io x ->; exact (NI x Io)).
  assert (N0 : defaulted cc0) by (intros c0 X0; discriminate X0).
  destruct (run_inv defaulted keeps_interval defaulted_step ops cc0 s l (good_start ops C) F FQ N0 E) as (P & S).
  destruct (proj2 S c Eo) as [(N & Fi & Hi & HI & W1 & W2 & W3)|(T & Ec)].
  - destruct (P c Eo N) as (R1 & R2). pose proof (rate_200 _ N Fi) as R3. pose proof (max_measure _ N Fi R1) as M1. destruct (icrt_spec _ Fi R3) as (_ & _ & I). rewrite <- (n_icrt _ N) in I.
    assert (M0 : (0 <= IZR (max_recalibrate_measure_time (glob s)))%R) by (apply IZR_le; apply (n_mmt _ N)).
    assert (I0 : (0 <= IZR (recalibrate_interval_cycles c))%R) by (apply IZR_le; lia).
    pose proof (default_error (B2R (clock_rate (glob s))) f (B2R (inverse_clock_rate_tfrac (glob s))) (IZR (recalibrate_interval_cycles c)) (IZR (max_recalibrate_measure_time (glob s))) ltac:(lra) Hf Hr I ltac:(lra) ltac:(lra)) as D.
    rewrite Hw in A. change (IZR (2 ^ 32)) with 4294967296%R in *. lra.
  - rewrite (now_tod (glob s) c r T Ec Fr1) in X. discriminate X.
Qed.
Print Assumptions C79_default_accurate.
(** [day] as it is seen by a machine that really runs at 1010 MHz, with a quantum of a microsecond. *)
Definition w1010 : world := World (4611686018427387904 - 4294967296 / 1000000 / 1010 * (2 ^ 40 + 600))%R (4294967296 / 1000000 / 1010)%R 4295%R.
Example C79_honest_case : Forall (honest w1010) day /\ (0 <= w_per_cycle w1010)%R /\
  w_per_cycle w1010 = (IZR (2 ^ 32) / 1000000 / 1010)%R /\ (Rabs (B2R (of_Z 1000) - 1010) <= 1010 / 100)%R.
Proof.
  split; [|split; [cbn; lra|split; [cbn; lra|]]].
  - constructor; [exact I|]. constructor; [exact I|]. constructor; [|constructor; [|constructor; [|constructor]]]; (split; [reflexivity|split; [reflexivity|]]).
    + exists (2 ^ 40 + 600)%R. unfold true_time, w1010, r1. cbn [r_start r_end r_tod w_start w_per_cycle w_quantum]. change (2 ^ 40)%Z with 1099511627776%Z. change (2 ^ 62)%Z with 4611686018427387904%Z. split; [left; cbn; lra|]. cbn; apply Rabs_le; lra.
    + exists (2 ^ 40 + 999500)%R. unfold true_time, w1010, r2. cbn [r_start r_end r_tod w_start w_per_cycle w_quantum]. change (2 ^ 40)%Z with 1099511627776%Z. change (2 ^ 62)%Z with 4611686018427387904%Z. split; [left; cbn; lra|]. cbn; apply Rabs_le; lra.
    + exists (2 ^ 40 + 1001500)%R. unfold true_time, w1010, r3. cbn [r_start r_end r_tod w_start w_per_cycle w_quantum]. change (2 ^ 40)%Z with 1099511627776%Z. change (2 ^ 62)%Z with 4611686018427387904%Z. split; [left; cbn; lra|]. cbn; apply Rabs_le; lra.
  - destruct (of_Z_exact 1000) as (-> & _); [lia|]. apply Rabs_le. lra.
Qed.

(** With AUFSO_UseTod every answer is the time of day, asked for at that moment. *)
Theorem C79_use_tod (ms : list freq_mode) (m : measured) (ops : list cc_op) (s : cc_state) (l : list (readings * (Z * bool))) :
  Forall sensible (Calibrate m :: ops) ->
  cc_run (map Allow ms ++ Allow ModeUseTod :: Calibrate m :: ops) cc0 = Ok (s, l) ->
  Forall (fun a => snd a = (r_tod (fst a), true)) l.
Proof.
  intros F E. rewrite run_app in E. destruct (run_allows ms cc0) as (g & U & X); [constructor; reflexivity|reflexivity|]. rewrite X in E. cbn [bind cc_run cc_step glob obj] in E.
  destruct (allow_unset ModeUseTod g U) as (U' & M). set (g1 := allowUnsafeFrequencyScaling ModeUseTod g) in *.
  pose proof (Forall_inv F) as F1. pose proof (Forall_inv_tail F) as F2. cbn in F1.
  destruct (calibrate_ok m g1 F1) as [A|(g' & E' & K & _ & _ & Mg)]; [tauto|rewrite A in E; discriminate E|]. rewrite E' in E. cbn [bind] in E.
  assert (T : todonly g') by (destruct K as [K|K]; [exfalso; apply (n_mode _ K); congruence|exact K]).
  destruct (cc_run ops (CC g' None)) as [[s2 l2]| | |] eqn:E2; cbn in E; try discriminate E. injection E as <- <-.
  apply (asking_run ops (CC g' None) s2 l2); auto.
  - split; [split; [cbn; auto|discriminate]|cbn; auto].
  - intros N. exfalso. apply (n_mode _ N). apply (t_mode _ T).
  - left. exact T.
Qed.
Print Assumptions C79_use_tod.
(** With AUFSO_Slow or AUFSO_WarnSlow the same holds when a cpu may scale its frequency. *)
Theorem C79_slow (ms : list freq_mode) (md : freq_mode) (m : measured) (ops : list cc_op) (s : cc_state) (l : list (readings * (Z * bool))) :
  md = ModeSlow \/ md = ModeWarnSlow -> m_scaling m = true ->
  Forall sensible (Calibrate m :: ops) -> Forall ordinary ops ->
  cc_run (map Allow ms ++ Allow md :: Calibrate m :: ops) cc0 = Ok (s, l) ->
  Forall (fun a => snd a = (r_tod (fst a), true)) l.
Proof.
  intros Md Sc F O E. rewrite run_app in E. destruct (run_allows ms cc0) as (g & U & X); [constructor; reflexivity|reflexivity|]. rewrite X in E. cbn [bind cc_run cc_step glob obj] in E.
  destruct (allow_unset md g U) as (U' & M). set (g1 := allowUnsafeFrequencyScaling md g) in *.
  pose proof (Forall_inv F) as F1. pose proof (Forall_inv_tail F) as F2. cbn in F1.
  destruct (calibrate_ok m g1 F1) as [A|(g' & E' & K & _ & Nn & Mg)]; [tauto|rewrite A in E; discriminate E|]. pose proof (calibrate_slow m g1 g' U' ltac:(rewrite M; exact Md) Sc E') as Sl. rewrite E' in E. cbn [bind] in E.
  assert (N : normal g') by (apply Nn; [exact U'|]; rewrite M; destruct Md as [->|Md]; [discriminate|rewrite Md; discriminate]).
  destruct (cc_run ops (CC g' None)) as [[s2 l2]| | |] eqn:E2; cbn in E; try discriminate E. injection E as <- <-.
  apply (asking_run ops (CC g' None) s2 l2); auto.
  - split; [split; [cbn; auto|discriminate]|cbn; auto].
  - right. split; [exact N|]. split; [exact Sl|]. discriminate.
Qed.
Print Assumptions C79_slow.
Definition scaling : measured := Measured true 5000 (Some (of_Z 1000)).
Example C79_slow_case : answers (cc_run [Allow ModeSlow; Calibrate scaling; New false scaling; Now r1; Now r3] cc0) = Some [(2 ^ 62, true); (2 ^ 62 + 4252000, true)] /\
  answers (cc_run [Allow ModeUseTod; Calibrate scaling; New false scaling; Now r1; Now r3] cc0) = Some [(2 ^ 62, true); (2 ^ 62 + 4252000, true)].
Proof. split; vm_compute; reflexivity. Qed.

(** A clock answers as long as the time of day does not go back. *)
Theorem C79_answers (ops : list cc_op) (s : cc_state) (l : list (readings * (Z * bool))) (r : readings) (c : clock) :
  Forall sensible ops -> machine r -> calibrates_first ops -> cc_run ops cc0 = Ok (s, l) -> obj s = Some c ->
  (forall r', In (Now r') ops -> r_tod r' <= r_tod r) -> exists t asked c', todccTfrac (glob s) c r = Ok (t, asked, c').
Proof.
  intros F M C E Eo T.
  pose (P := fun s : cc_state => forall c, obj s = Some c -> last_calibrate_tod_tfrac c <= r_tod r).
  pose (Q := fun o : cc_op => match o with Now r' => r_tod r' <= r_tod r | _ => True end).
  assert (FQ : Forall Q ops) by (apply Forall_forall; intros [m|m|a m|x|r'] Io; cbn; auto).
  assert (N0 : P cc0) by (intros c0 X0; discriminate X0).
  assert (R0 : 0 <= r_tod r) by (destruct M as (_ & _ & M & _); apply M).
  destruct (run_inv P Q) with (ops := ops) (s := cc0) (s' := s) (l := l) as (Ps & S); auto using good_start.
  - intros s0 o s' a S H HQ P0 E0 S' c' Ec. destruct (step_clock s0 o s' a c' S H E0 S' Ec) as [(c0 & Eo' & -> & _)|[(_ & B & _)|[(x & c0 & _ & Eo' & _ & _ & B)|(r' & c0 & t & b & -> & Eo' & _ & _ & X)]]].
    + now apply P0. + lia. + rewrite B. now apply P0.
    + cbn in H, HQ. pose proof (P0 c0 Eo') as L0. destruct (proj2 S c0 Eo') as [(N & _)|(Td & Ec0)].
      * pose proof (now_cases s0 c0 r' t b c' S Eo' N H X) as K. destruct K; cbn; lia.
      * rewrite (now_tod (glob s0) c0 r' Td Ec0 H) in X. injection X as <- <- <-. exact L0.
  - destruct (proj2 S c Eo) as [(N & _)|(Td & Ec0)].
    + destruct (now_normal (glob s) c r (proj2 S c Eo) N M) as [(_ & _ & L & _)|(t & b & c' & X & _)]; [exfalso; specialize (Ps c Eo); lia|eauto].
    + rewrite (now_tod (glob s) c r Td Ec0 M). eauto.
Qed.
Print Assumptions C79_answers.

(** Refuted: "the clock never runs backwards". [day], with readings that are honest for a machine
    that is measured within one per cent, answers a time that is earlier than the one before by some
    nine microseconds, when it asks for the time of day again. *)
Theorem C79_backwards_refuted : exists t1 t2 rest, answers (cc_run day cc0) = Some (rest ++ [(t1, false); (t2, true)]) /\ t2 + 36000 < t1.
Proof. exists (2 ^ 62 + 4288095), (2 ^ 62 + 4252000), [(2 ^ 62, true)]. split; [vm_compute; reflexivity|lia]. Qed.
Print Assumptions C79_backwards_refuted.
(** Refuted: "with AUFSO_UseTod we are just assumed to be calibrated". Making a Clock before
    calibrateClock converts minus infinity to an unsigned integer. *)
Theorem C79_use_tod_refuted (ms : list freq_mode) (a : bool) (m : measured) : cc_run (map Allow ms ++ [Allow ModeUseTod; New a m]) cc0 = UB.
Proof.
  rewrite run_app. destruct (run_allows ms cc0) as (g & U & X); [constructor; reflexivity|reflexivity|]. rewrite X. cbn [bind cc_run cc_step glob obj].
  destruct (allow_unset ModeUseTod g U) as (U' & M). set (g1 := allowUnsafeFrequencyScaling ModeUseTod g) in *.
  unfold newClock, isCalibrated. rewrite M. cbn [is_use_tod]. rewrite orb_true_r. cbn [negb bind]. unfold setRecalibrateIntervalSeconds. rewrite (u_rate g1 U'), (u_icrt g1 U').
  assert (B : Bltb (dmul (dmul (dmul one_ms (of_Z 1000000)) minus_inf) (if Bltb minus_inf (of_Z 1) then of_Z 1 else minus_inf)) (of_Z (2 ^ 30)) = true) by (vm_compute; reflexivity).
  rewrite B. cbn [invariant bind]. assert (Q : to_unsigned 64 (dmul (dmul one_ms (of_Z 1000000)) minus_inf) = UB) by (vm_compute; reflexivity). rewrite Q. reflexivity.
Qed.
Print Assumptions C79_use_tod_refuted.
(** Refuted: "every interval is accepted or refused". A negative one is undefined. *)
Theorem C79_negative_refuted : cc_run [Calibrate ghz; New false ghz; SetInterval (of_Z (-1))] cc0 = UB.
Proof. vm_compute. reflexivity. Qed.
Print Assumptions C79_negative_refuted.
(** Refuted: "the first answer asks for the time of day". Shortly after the cycle counter was reset it
    is the number of microseconds since then, in 1970. *)
Theorem C79_boot_refuted : answers (cc_run [Calibrate ghz; New false ghz; Now (Readings 1000000 0 (2 ^ 62) 0)] cc0) = Some [(4294967, false)].
Proof. vm_compute. reflexivity. Qed.
Print Assumptions C79_boot_refuted.
