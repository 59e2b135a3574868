(** Proofs about programs that use the cycle-counter clock. *)
From Coq Require Import List ZArith Reals Lra Lia Psatz Bool.
From Coq Require Import ZifyBool ZifyNat.
From Flocq Require Import Core BinarySingleNaN.
From Verif Require Import Common Double64 Clock_Model Clock_Proofs ClockCC_Model ClockCC_Spec ClockCC_Proofs.
Import ListNotations.
Local Open Scope Z_scope.

Definition good (s : cc_state) (ops : list cc_op) : Prop :=
  state_ok s /\
  (normal (glob s) \/ todonly (glob s) \/
   unset (glob s) /\ (mode (glob s) <> ModeUseTod /\ ~ In (Allow ModeUseTod) ops \/
                      exists ms m rest, ops = map Allow ms ++ Calibrate m :: rest)).
Lemma good_start ops : calibrates_first ops -> good cc0 ops.
Proof.
  intros H. split.
  - split; [right; right; split; [constructor; reflexivity|reflexivity]|]. discriminate.
  - right. right. split; [constructor; reflexivity|]. destruct H as [H|H]; [now right|]. left. split; [discriminate|exact H].
Qed.
Lemma set_or s : normal (glob s) \/ todonly (glob s) -> normal (glob s) \/ todonly (glob s) \/ unset (glob s) /\ False.
Proof. tauto. Qed.
Lemma good_step s o ops : good s (o :: ops) -> sensible o ->
  cc_step s o = Abort \/ exists s' a, cc_step s o = Ok (s', a) /\ good s' ops.
Proof.
  intros (S & G) H.
  assert (P : normal (glob s) \/ todonly (glob s) \/ unset (glob s) /\ (mode (glob s) <> ModeUseTod \/ forall a m, o <> New a m)).
  { destruct G as [N|[T|(U & [(M & _)|(ms & m & rest & E)])]]; auto. right. right. split; [exact U|]. right. intros a m' ->. destruct ms; discriminate E. }
  destruct (step_ok s o S H P) as [A|(s' & a & E & S')]; [now left|]. right. exists s', a. split; [exact E|]. split; [exact S'|].
  (* what became of the static variables *)
  assert (Keep : normal (glob s) \/ todonly (glob s) -> normal (glob s') \/ todonly (glob s')).
  { intros K. destruct o as [m|m|a' m|x|r]; cbn [cc_step] in E.
    - injection E as <- <-. cbn. now rewrite allow_ok.
    - destruct (calibrate_ok m (glob s) H) as [A|(g' & E' & K' & _)]; [tauto|rewrite A in E; discriminate E|]. rewrite E' in E. cbn in E. injection E as <- <-. exact K'.
    - destruct (new_ok a' m (glob s) H) as [A|(g' & c & E' & _ & K' & _)]; [tauto|rewrite A in E; discriminate E|]. rewrite E' in E. cbn in E. injection E as <- <-. cbn. now rewrite K'.
    - destruct (obj s) as [c|]; [|injection E as <- <-; exact K]. destruct (setRecalibrateIntervalSeconds _ _ _); cbn in E; try discriminate E. injection E as <- <-. exact K.
    - destruct (obj s) as [c|]; [|injection E as <- <-; exact K]. destruct (todccTfrac _ _ _) as [[[t b] c']| | |]; cbn in E; try discriminate E. injection E as <- <-. exact K. }
  destruct G as [N|[T|(U & V)]]; [destruct Keep as [K|K]; auto..|].
  destruct S as (SS & SC).
  assert (No : obj s = None).
  { destruct SS as [N|[T|(_ & X)]]; [| |exact X]; exfalso; [pose proof (n_rate _ N) as Q|pose proof (t_rate _ T) as Q]; rewrite (u_rate _ U) in Q; vm_compute in Q; discriminate Q. }
  destruct o as [m|m|a' m|x|r]; cbn [cc_step] in E.
  - injection E as <- <-. cbn. destruct (allow_unset m (glob s) U) as (U' & Mm). right. right. split; [exact U'|].
    destruct V as [(V1 & V2)|(ms & m' & rest & V)].
    + left. split; [rewrite Mm; intros ->; apply V2; now left|intros I; apply V2; now right].
    + right. destruct ms as [|m0 ms]; [discriminate V|]. injection V as _ ->. eauto.
  - destruct (calibrate_ok m (glob s) H) as [A|(g' & E' & K' & _)]; [tauto|rewrite A in E; discriminate E|]. rewrite E' in E. cbn in E. injection E as <- <-. cbn. tauto.
  - destruct V as [(V1 & _)|(ms & m' & rest & V)]; [|destruct ms; discriminate V].
    destruct (new_ok a' m (glob s) H) as [A|(g' & c & E' & K' & _)]; [tauto|rewrite A in E; discriminate E|]. rewrite E' in E. cbn in E. injection E as <- <-. cbn. destruct K' as [(K' & _)|(K' & _)]; auto.
  - destruct V as [(V1 & V2)|(ms & m' & rest & V)]; [|destruct ms; discriminate V]. rewrite No in E. injection E as <- <-. right. right. split; [exact U|]. left. split; [exact V1|intros I; apply V2; now right].
  - destruct V as [(V1 & V2)|(ms & m' & rest & V)]; [|destruct ms; discriminate V]. rewrite No in E. injection E as <- <-. right. right. split; [exact U|]. left. split; [exact V1|intros I; apply V2; now right].
Qed.
Lemma run_good ops : forall s, good s ops -> Forall sensible ops -> cc_run ops s = Abort \/ exists s' l, cc_run ops s = Ok (s', l) /\ state_ok s'.
Proof.
  induction ops as [|o ops IH]; intros s G F.
  - right. exists s, []. split; [reflexivity|apply G].
  - inversion F as [|? ? F1 F2]; subst. cbn [cc_run]. destruct (good_step s o ops G F1) as [A|(s' & a & E & G')]; [left; rewrite A; reflexivity|]. rewrite E. cbn [bind].
    destruct (IH s' G' F2) as [A|(s'' & l & E' & S')]; [left; rewrite A; reflexivity|]. right. rewrite E'. cbn [bind]. eauto.
Qed.
(** An invariant of all steps is an invariant of all runs. *)
Lemma run_inv (P : cc_state -> Prop) (Q : cc_op -> Prop) :
  (forall s o s' a, state_ok s -> sensible o -> Q o -> P s -> cc_step s o = Ok (s', a) -> state_ok s' -> P s') ->
  forall ops s s' l, good s ops -> Forall sensible ops -> Forall Q ops -> P s -> cc_run ops s = Ok (s', l) -> P s' /\ state_ok s'.
Proof.
  intros St. induction ops as [|o ops IH]; intros s s' l G F FQ Ps E.
  - injection E as <- <-. split; [exact Ps|apply G].
  - inversion F as [|? ? F1 F2]; inversion FQ as [|? ? Q1 Q2]; subst. cbn [cc_run] in E.
    destruct (good_step s o ops G F1) as [A|(s1 & a & E1 & G')]; [rewrite A in E; discriminate E|]. rewrite E1 in E. cbn [bind] in E.
    destruct (cc_run ops s1) as [[s2 l2]| | |] eqn:E2; cbn in E; try discriminate E. injection E as <- <-.
    eapply (IH s1 s2 l2 G' F2 Q2); [|exact E2]. eapply St; eauto; [apply G|apply G'].
Qed.

(** What one step does to the Clock. *)
Lemma setRecal_only x g c c' : setRecalibrateIntervalSeconds x g c = Ok c' -> exists n, c' = Clock (nrecalibrate c) (last_calibrate_tod_tfrac c) (last_cc c) 0 n.
Proof.
  unfold setRecalibrateIntervalSeconds. generalize (Bltb (dmul (dmul (dmul x (of_Z 1000000)) (clock_rate g)) (if Bltb (inverse_clock_rate_tfrac g) (of_Z 1) then of_Z 1 else inverse_clock_rate_tfrac g)) (of_Z (2 ^ 30))).
  intros b E. destruct b; cbn [invariant bind] in E; [|discriminate E]. destruct (to_unsigned _ _); cbn [bind] in E; try discriminate E. injection E as <-. eauto.
Qed.
Lemma step_clock s o s' a c' : state_ok s -> sensible o -> cc_step s o = Ok (s', a) -> state_ok s' -> obj s' = Some c' ->
  (exists c, obj s = Some c /\ c' = c /\ glob s' = glob s /\ (forall r, o <> Now r)) \/
  (last_recalibrate_cc c' = 0 /\ last_calibrate_tod_tfrac c' = 0 /\ last_cc c' = 0 /\ (exists b m, o = New b m)) \/
  (exists x c, o = SetInterval x /\ obj s = Some c /\ glob s' = glob s /\ last_recalibrate_cc c' = 0 /\ last_calibrate_tod_tfrac c' = last_calibrate_tod_tfrac c) \/
  (exists r c t b, o = Now r /\ obj s = Some c /\ glob s' = glob s /\ a = Some (t, b) /\ todccTfrac (glob s) c r = Ok (t, b, c')).
Proof.
  intros (S & C) H E S' Ec. destruct o as [m|m|a' m|x|r]; cbn [cc_step] in E.
  - injection E as <- <-. cbn in *. left. exists c'. split; [exact Ec|]. split; [reflexivity|]. split; [|discriminate]. apply allow_ok. destruct (C _ Ec) as [(N & _)|(T & _)]; auto.
  - destruct (calibrateClock m (glob s)) as [g'| | |] eqn:X; cbn [bind] in E; try discriminate E. injection E as <- <-. cbn in *. left. exists c'. split; [exact Ec|]. split; [reflexivity|]. split; [|discriminate].
    assert (K : normal (glob s) \/ todonly (glob s)) by (destruct (C _ Ec) as [(N & _)|(T & _)]; auto).
    destruct (calibrate_ok m (glob s) H) as [A|(g1 & E' & _ & Same & _)]; [tauto|congruence|]. rewrite X in E'. injection E' as ->. now apply Same.
  - right. left. unfold newClock in E. destruct (if negb _ then _ else _) as [g| | |]; cbn [bind] in E; try discriminate E.
    destruct (setRecalibrateIntervalSeconds one_ms g (Clock 0 0 0 0 0)) as [c| | |] eqn:X; cbn [bind] in E; try discriminate E. injection E as <- <-. cbn in Ec. injection Ec as ->.
    apply setRecal_only in X. destruct X as (n & ->). cbn. eauto 6.
  - destruct (obj s) as [c|] eqn:Eo; [|injection E as <- <-; congruence]. right. right. left. exists x, c.
    destruct (setRecalibrateIntervalSeconds x (glob s) c) as [c1| | |] eqn:X; cbn [bind] in E; try discriminate E. injection E as <- <-. cbn in Ec. injection Ec as ->.
    apply setRecal_only in X. destruct X as (n & ->). cbn. auto 6.
  - destruct (obj s) as [c|] eqn:Eo; [|injection E as <- <-; congruence]. right. right. right.
    destruct (todccTfrac (glob s) c r) as [[[t b] c1]| | |] eqn:X; cbn [bind] in E; try discriminate E. injection E as <- <-. cbn in Ec. injection Ec as ->. exists r, c, t, b. auto 6.
Qed.

(** The last calibration is honest, unless the next call recalibrates. *)
Definition near (w : world) (s : cc_state) : Prop :=
  forall c, obj s = Some c -> normal (glob s) ->
    last_recalibrate_cc c = 0 \/
    last_recalibrate_cc c <= last_cc c /\ last_calibrate_tod_tfrac c < 2 ^ 64 - 2 ^ 32 /\
    (Rabs (IZR (last_calibrate_tod_tfrac c) - true_time w (IZR (last_recalibrate_cc c))) <=
       w_quantum w + w_per_cycle w * IZR (max_recalibrate_measure_time (glob s)))%R.
Lemma asks_reset g c r : clock_ok g c -> normal g -> 2 ^ 30 <= r_cc r -> machine r -> last_recalibrate_cc c = 0 -> asks c r = true.
Proof.
  intros [(_ & _ & Hi & _)|(T & _)] N O (M & _) E; [|exfalso; apply (n_mode g N); apply (t_mode g T)].
  unfold asks. rewrite E, Z.sub_0_r. unfold word in M. rewrite Z.mod_small by lia. lia.
Qed.
Lemma now_cases s c r t b c' : state_ok s -> obj s = Some c -> normal (glob s) -> machine r -> todccTfrac (glob s) c r = Ok (t, b, c') -> now_step (glob s) c r t b c'.
Proof.
  intros (_ & C) Ec N M E. destruct (now_normal (glob s) c r (C c Ec) N M) as [(A & _)|(t' & b' & c'' & E' & K & _)]; [congruence|]. rewrite E in E'. injection E' as -> -> ->. exact K.
Qed.
Lemma near_step w s o s' a : (0 <= w_per_cycle w)%R -> state_ok s -> sensible o -> honest w o /\ ordinary o -> near w s -> cc_step s o = Ok (s', a) -> state_ok s' -> near w s'.
Proof.
  intros W S H (Ho & Or) P E S' c' Ec N. destruct (step_clock s o s' a c' S H E S' Ec) as [(c & Eo & -> & G & _)|[(A & _)|[(x & c & _ & _ & _ & A & _)|(r & c & t & b & -> & Eo & G & _ & X)]]].
  - rewrite G in *. apply (P c Eo N). - now left. - now left.
  - rewrite G in *. cbn in H, Ho, Or. pose proof (now_cases s c r t b c' S Eo N H X) as K. destruct K as [A Sl|A L|A NS L L1 L2|A d L Hd]; cbn.
    + now apply P. + now left.
    + right. destruct H as (M1 & M2 & M3 & M4). unfold word in *. split; [lia|]. split; [lia|].
      destruct Ho as (H1 & H2 & m & Hm & Hq).
      assert (Mi : mid r = (r_start r + r_end r) / 2) by (unfold mid; rewrite Z.mod_small by lia; reflexivity).
      assert (Lo : r_start r <= mid r <= r_end r) by (rewrite Mi; Z.to_euclidean_division_equations; lia).
      assert (Lt : r_start r < r_end r) by lia.
      assert (Hm' : (IZR (r_start r) <= m <= IZR (r_end r))%R) by (apply IZR_lt in Lt; lra).
      assert (D : (Rabs (true_time w m - true_time w (IZR (mid r))) <= w_per_cycle w * IZR (max_recalibrate_measure_time (glob s)))%R).
      { unfold true_time. replace (w_start w + w_per_cycle w * m - (w_start w + w_per_cycle w * IZR (mid r)))%R with (w_per_cycle w * (m - IZR (mid r)))%R by ring.
        rewrite Rabs_mult, (Rabs_pos_eq (w_per_cycle w)) by exact W. apply Rmult_le_compat_l; [exact W|].
        assert (B : (IZR (r_end r) - IZR (r_start r) <= IZR (max_recalibrate_measure_time (glob s)))%R) by (rewrite <- minus_IZR; apply IZR_le; lia).
        assert (B1 : (IZR (r_start r) <= IZR (mid r) <= IZR (r_end r))%R) by (split; apply IZR_le; lia). apply Rabs_le. lra. }
      replace (IZR (r_tod r) - true_time w (IZR (mid r)))%R with ((IZR (r_tod r) - true_time w m) + (true_time w m - true_time w (IZR (mid r))))%R by ring.
      eapply Rle_trans; [apply Rabs_triang|]. lra.
    + destruct (P c Eo N) as [Z|(B1 & B2 & B3)]; [now left|]. right. split; [lia|]. split; [exact B2|exact B3].
Qed.

(** The answers since the last calibration. *)
Definition anchored (prev : option Z) (s : cc_state) : Prop :=
  forall c, obj s = Some c -> normal (glob s) ->
    last_recalibrate_cc c = 0 \/ ~ slow (glob s) /\
    last_recalibrate_cc c <= last_cc c /\ last_calibrate_tod_tfrac c < 2 ^ 64 - 2 ^ 32 /\
    exists p, prev = Some p /\ p <= last_calibrate_tod_tfrac c + est (glob s) (last_cc c - last_recalibrate_cc c).
Definition next_prev (prev : option Z) (a : option (Z * bool)) : option Z := match a with Some (t, _) => Some t | None => prev end.
Lemma step_none s o s' : cc_step s o = Ok (s', None) -> forall r, o = Now r -> obj s = None.
Proof.
  intros E r ->. cbn [cc_step] in E. destruct (obj s) as [c|]; [|reflexivity]. destruct (todccTfrac _ _ _) as [[[t b] c']| | |]; cbn in E; discriminate E.
Qed.
Lemma anchored_step prev s o s' a : state_ok s -> sensible o -> ordinary o -> anchored prev s -> cc_step s o = Ok (s', a) -> state_ok s' ->
  anchored (next_prev prev a) s' /\ (forall t, a = Some (t, false) -> exists p, prev = Some p /\ p <= t).
Proof.
  intros S H Or P E S'.
  assert (None_or : a = None \/ exists r c, o = Now r /\ obj s = Some c).
  { destruct o as [m|m|a' m|x|r]; cbn [cc_step] in E.
    - injection E as <- <-. now left.
    - destruct (calibrateClock _ _); cbn in E; try discriminate E. injection E as <- <-. now left.
    - destruct (newClock _ _ _) as [[g c]| | |]; cbn in E; try discriminate E. injection E as <- <-. now left.
    - destruct (obj s); [destruct (setRecalibrateIntervalSeconds _ _ _); cbn in E; try discriminate E|]; injection E as <- <-; now left.
    - destruct (obj s) as [c|] eqn:Eo; [right; eauto|]. injection E as <- <-. now left. }
  destruct None_or as [->|(r & c & -> & Eo)].
  - split; [|discriminate]. intros c' Ec N. cbn [next_prev]. destruct (step_clock s o s' None c' S H E S' Ec) as [(c & Eo & -> & G & _)|[(A & _)|[(x & c & _ & _ & _ & A & _)|(r & c & t & b & -> & Eo & G & C & X)]]]; [|now left|now left|discriminate C].
    rewrite G in *. now apply P.
  - cbn [cc_step] in E. rewrite Eo in E. destruct (todccTfrac (glob s) c r) as [[[t b] c']| | |] eqn:X; cbn [bind] in E; try discriminate E. injection E as <- <-. cbn [next_prev]. cbn in H, Or.
    destruct S as (SS & SC). pose proof (SC c Eo) as Ck. destruct Ck as [(N & F & Hi & HI & W1 & W2 & W3)|(T & Ec)].
    + assert (Ck : clock_ok (glob s) c) by (now apply SC).
      pose proof (now_cases s c r t b c' (conj SS SC) Eo N H X) as K. destruct H as (M1 & M2 & M3 & M4). unfold word in *.
      destruct K as [A Sl|A L|A NS L L1 L2|A d L Hd].
      * split; [|discriminate]. intros c'' [= <-] _. cbn [glob]. destruct (P c Eo N) as [Z|(NS & _)]; [now left|contradiction].
      * split; [|discriminate]. intros c'' [= <-] _. now left.
      * split; [|discriminate]. intros c'' [= <-] _. cbn. right. split; [exact NS|]. split; [lia|]. split; [lia|]. exists (r_tod r). split; [reflexivity|]. rewrite Z.sub_diag, est_0. lia.
      * destruct (P c Eo N) as [Z|(NS & B1 & B2 & p & B3 & B4)].
        { exfalso. rewrite (asks_reset (glob s) c r Ck N) in A; [discriminate A|tauto|unfold machine, word; tauto|exact Z]. }
        assert (Dd : d = r_cc r - last_recalibrate_cc c) by (unfold d; rewrite Z.mod_small by lia; reflexivity).
        destruct (est_ok (glob s) (recalibrate_interval_cycles c) d N F Hd) as (_ & E2 & _); [lia|exact HI|].
        rewrite Z.mod_small by lia. split.
        -- intros c'' [= <-] _. cbn. right. split; [exact NS|]. split; [lia|]. split; [exact B2|]. eexists. split; [reflexivity|]. rewrite Dd. lia.
        -- intros t' [= <-]. exists p. split; [exact B3|]. pose proof (est_mono (glob s) (last_cc c - last_recalibrate_cc c) d N F ltac:(lia)). lia.
    + rewrite (now_tod (glob s) c r T Ec H) in X. injection X as <- <- <-. split; [|discriminate]. intros c'' _ N. exfalso. apply (n_mode _ N). apply (t_mode _ T).
Qed.

(** Clocks that always ask for the time of day. *)
Definition asking (s : cc_state) : Prop :=
  todonly (glob s) \/ normal (glob s) /\ slow (glob s) /\ forall c, obj s = Some c -> last_recalibrate_cc c = 0.
Lemma asking_step s o s' a : state_ok s -> sensible o -> (normal (glob s) -> ordinary o) -> asking s -> cc_step s o = Ok (s', a) -> state_ok s' ->
  asking s' /\ (normal (glob s') -> normal (glob s)) /\ match o, a with Now r, Some (t, b) => t = r_tod r /\ b = true | _, _ => True end.
Proof.
  intros S H O A E S'.
  assert (K : glob s' = glob s).
  { assert (K : normal (glob s) \/ todonly (glob s)) by (destruct A as [T|(N & _)]; auto). destruct o as [m|m|a' m|x|r]; cbn [cc_step] in E.
    - injection E as <- <-. cbn. now apply allow_ok.
    - destruct (calibrate_ok m (glob s) H) as [X|(g' & E' & _ & Same & _)]; [tauto|rewrite X in E; discriminate E|]. rewrite E' in E. cbn in E. injection E as <- <-. now apply Same.
    - destruct (new_ok a' m (glob s) H) as [X|(g' & c & E' & _ & K' & _)]; [tauto|rewrite X in E; discriminate E|]. rewrite E' in E. cbn in E. injection E as <- <-. cbn. now rewrite K'.
    - destruct (obj s) as [c|]; [|injection E as <- <-; reflexivity]. destruct (setRecalibrateIntervalSeconds _ _ _); cbn in E; try discriminate E. injection E as <- <-. reflexivity.
    - destruct (obj s) as [c|]; [|injection E as <- <-; reflexivity]. destruct (todccTfrac _ _ _) as [[[t b] c']| | |]; cbn in E; try discriminate E. injection E as <- <-. reflexivity. }
  assert (Clk : forall r c t b c', o = Now r -> obj s = Some c -> todccTfrac (glob s) c r = Ok (t, b, c') -> t = r_tod r /\ b = true /\ c' = c).
  { intros r c t b c' -> Eo X. cbn in H. destruct A as [T|(N & Sl & Z)].
    - destruct (proj2 S c Eo) as [(N & _)|(_ & Ec)]; [exfalso; apply (n_mode _ N); apply (t_mode _ T)|]. rewrite (now_tod (glob s) c r T Ec H) in X. injection X as <- <- <-. auto.
    - pose proof (now_cases s c r t b c' S Eo N H X) as Q. specialize (O N). cbn in O. pose proof (asks_reset (glob s) c r (proj2 S c Eo) N (proj1 O) H (Z c Eo)) as As.
      destruct (now_normal (glob s) c r (proj2 S c Eo) N H) as [(Ab & _)|_]; [congruence|].
      unfold todccTfrac in X. fold (asks c r) in X. rewrite As in X. unfold todccTfrac_recalibrate in X. destruct Sl as (S1 & S2). rewrite S1 in X. destruct S2 as [S2|S2]; rewrite S2 in X; cbn in X; injection X as <- <- <-; auto. }
  split; [|split; [now rewrite K|]].
  - destruct A as [T|(N & Sl & Z)]; [left; now rewrite K|]. right. rewrite K. split; [exact N|]. split; [exact Sl|]. intros c' Ec.
    destruct (step_clock s o s' a c' S H E S' Ec) as [(c & Eo & -> & _)|[(B & _)|[(x & c & _ & _ & _ & B & _)|(r & c & t & b & -> & Eo & _ & _ & X)]]]; auto.
    destruct (Clk r c t b c' eq_refl Eo X) as (_ & _ & ->). now apply Z.
  - destruct o as [m|m|a' m|x|r]; try exact I. cbn [cc_step] in E. destruct (obj s) as [c|] eqn:Eo; [|injection E as <- <-; exact I].
    destruct (todccTfrac (glob s) c r) as [[[t b] c']| | |] eqn:X; cbn in E; try discriminate E. injection E as <- <-. destruct (Clk r c t b c' eq_refl eq_refl X) as (-> & -> & _). auto.
Qed.
Lemma asking_run ops : forall s s' l, good s ops -> Forall sensible ops -> (normal (glob s) -> Forall ordinary ops) -> asking s -> cc_run ops s = Ok (s', l) ->
  Forall (fun a => snd a = (r_tod (fst a), true)) l.
Proof.
  induction ops as [|o ops IH]; intros s s' l G F O A E.
  - injection E as <- <-. constructor.
  - inversion F as [|? ? F1 F2]; subst. cbn [cc_run] in E.
    destruct (good_step s o ops G F1) as [X|(s1 & a & E1 & G')]; [rewrite X in E; discriminate E|]. rewrite E1 in E. cbn [bind] in E.
    destruct (cc_run ops s1) as [[s2 l2]| | |] eqn:E2; cbn in E; try discriminate E. injection E as <- <-.
    destruct (asking_step s o s1 a (proj1 G) F1) as (A' & N' & Q); auto; [intros N; specialize (O N); now inversion O|apply G'|].
    assert (Fl : Forall (fun a => snd a = (r_tod (fst a), true)) l2).
    { apply (IH s1 s2 l2 G' F2); auto. intros N. specialize (O (N' N)). now inversion O. }
    destruct o as [m|m|a' m|x|r]; try exact Fl. destruct a as [[t b]|]; [|exact Fl]. destruct Q as (-> & ->). constructor; [reflexivity|exact Fl].
Qed.
Lemma run_app ops1 : forall ops2 s, cc_run (ops1 ++ ops2) s = let! (s1, l1) := cc_run ops1 s in let! (s2, l2) := cc_run ops2 s1 in Ok (s2, l1 ++ l2).
Proof.
  induction ops1 as [|o ops1 IH]; intros ops2 s.
  - cbn. destruct (cc_run ops2 s) as [[s2 l2]| | |]; reflexivity.
  - cbn [app cc_run]. destruct (cc_step s o) as [[s1 a]| | |]; try reflexivity. cbn [bind]. rewrite IH.
    destruct (cc_run ops1 s1) as [[s2 l2]| | |]; try reflexivity. cbn [bind]. destruct (cc_run ops2 s2) as [[s3 l3]| | |]; try reflexivity. cbn [bind].
    destruct o; try reflexivity. destruct a as [p|]; reflexivity.
Qed.
Lemma run_allows ms : forall s, unset (glob s) -> obj s = None -> exists g, unset g /\ cc_run (map Allow ms) s = Ok (CC g None, []).
Proof.
  induction ms as [|m ms IH]; intros [g o] U E; cbn in E; subst o.
  - exists g. split; [exact U|reflexivity].
  - cbn [map cc_run cc_step glob obj bind]. destruct (IH (CC (allowUnsafeFrequencyScaling m g) None)) as (g' & U' & E'); [now apply allow_unset|reflexivity|]. exists g'. split; [exact U'|]. rewrite E'. reflexivity.
Qed.
Lemma calibrate_slow m g g' : unset g -> mode g = ModeSlow \/ mode g = ModeWarnSlow -> m_scaling m = true -> calibrateClock m g = Ok g' -> slow g'.
Proof.
  intros U M Sc E. unfold calibrateClock in E. rewrite (u_rate g U) in E. change (negb (Beqb minus_inf minus_inf)) with false in E. cbv iota in E.
  assert (E' : is_use_tod (mode g) = false /\ is_yes (mode g) = false /\ is_no (mode g) = false) by (destruct M as [M|M]; rewrite M; auto). destruct E' as (E1 & E2 & E3).
  rewrite E1, E2 in E. cbn [negb] in E. unfold checkForPossibleFrequencyScaling in E. rewrite Sc, E3 in E. cbn [negb bind mode may_scale] in E.
  destruct (m_rate m) as [r|]; cbn [bind] in E.
  - unfold setClockRate in E. destruct (invariant _); cbn [bind] in E; try discriminate E. destruct (invariant _); cbn [bind] in E; try discriminate E. destruct (invariant _); cbn [bind] in E; try discriminate E.
    assert (J : forall a b : globals, Ok a = Ok b -> a = b) by (intros ? ? J; injection J; auto). apply J in E. subst g'. split; [reflexivity|]. cbn. tauto.
  - destruct (invariant _); cbn [bind] in E; try discriminate E. injection E as <-. split; [reflexivity|]. cbn. tauto.
Qed.
