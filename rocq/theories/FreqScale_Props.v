(** Finding out whether a cpu may change its frequency: C116. *)
From Coq Require Import String List ZArith Bool Lia.
From Flocq Require Import Core BinarySingleNaN.
From Verif Require Import Common Base64_Spec Double64 ClockCC_Model FreqScale_Spec FreqScale_Model.
Import ListNotations.
Local Open Scope Z_scope.

Lemma eqs_eq a : forall b, eqs a b = true <-> a = b.
Proof.
  induction a as [|x a IH]; intros [|y b]; cbn [eqs]; try (split; congruence).
  rewrite andb_true_iff, Z.eqb_eq, IH. split; [intros [-> ->]; reflexivity|]. intros E. injection E as -> ->. auto.
Qed.
Lemma is_cpu_iff n : is_cpu n = true <-> names_cpu n.
Proof.
  unfold is_cpu, names_cpu. rewrite !andb_true_iff, eqs_eq, !Z.leb_le. split.
  - intros [[E A] B]. destruct n as [|a [|b [|c [|d r]]]]; cbn [nth] in A; try lia.
    cbn [firstn] in E. exists d, r. cbn [nth] in B. split; [|lia].
    change (a :: b :: c :: d :: r) with ([a; b; c] ++ d :: r). now rewrite E.
  - intros (d & r & -> & A). change (nth 3 (codes "cpu" ++ d :: r) 0) with d. split; [split; [reflexivity|]|]; lia.
Qed.
(** fgets: a whole line, or a piece without line feed that ends with the room or the file *)
Lemma fgets_cases n : forall l, (exists p rest, fgets n l = p ++ [10] /\ l = p ++ 10 :: rest /\ ~ In 10 p /\ (length p < n)%nat)
  \/ (~ In 10 (fgets n l) /\ exists rest, l = fgets n l ++ rest /\ (length (fgets n l) = n \/ rest = [])).
Proof.
  induction n as [|n IH]; intros [|c r]; cbn [fgets].
  - right. split; [intros []|]. exists []. auto.
  - right. split; [intros []|]. exists (c :: r). auto.
  - right. split; [intros []|]. exists []. auto.
  - destruct (Z.eqb_spec c 10) as [->|N].
    + left. exists [], r. repeat split; auto; cbn; lia.
    + destruct (IH r) as [(p & rest & E & -> & I & L)|(I & rest & E & L)].
      * left. exists (c :: p), rest. rewrite E. repeat split; [|cbn; lia]. intros [?|?]; [congruence|auto].
      * right. split; [intros [?|?]; [congruence|auto]|]. exists rest. cbn [app]. rewrite <- E. split; [reflexivity|]. cbn [length]. destruct L; [left; lia|right; assumption].
Qed.
Lemma strlen_le l : (strlen l <= length l)%nat.
Proof. induction l as [|c l IH]; cbn [strlen length]; [lia|]. destruct (c =? 0); lia. Qed.
Lemma strlen_full l : ~ In 0 l -> strlen l = length l.
Proof. induction l as [|c l IH]; intros N; [reflexivity|]. cbn [strlen length]. destruct (Z.eqb_spec c 0) as [->|_]; [destruct N; now left|]. f_equal. apply IH. intros I. apply N. now right. Qed.
Lemma strlen_zero l : In 0 l -> (strlen l < length l)%nat.
Proof. induction l as [|c l IH]; intros I; [destruct I|]. cbn [strlen length]. destruct (Z.eqb_spec c 0) as [->|N]; [lia|]. destruct I as [?|I]; [congruence|]. specialize (IH I). lia. Qed.
Lemma read_line f l : readFileLine f = Ok l <-> first_line f l.
Proof.
  destruct f as [bytes|]; cbn [readFileLine first_line]; [|split; congruence].
  destruct (fgets_cases 79 bytes) as [(p & rest & E & EB & I & L)|(I & rest & EB & L)].
  - rewrite E. rewrite app_length. cbn [length]. replace (Nat.eqb (length p + 1) 0) with false by (symmetry; apply Nat.eqb_neq; lia). cbn [negb invariant bind].
    destruct (in_dec Z.eq_dec 0 p) as [Z0|Z0].
    + assert (B : nth (strlen (p ++ [10]) - 1) (p ++ [10]) 0 =? 10 = false \/ strlen (p ++ [10]) = 0%nat).
      { assert (SP : strlen (p ++ [10]) = strlen p).
        { clear - Z0. induction p as [|c p IH]; [destruct Z0|]. cbn [app strlen]. destruct (Z.eqb_spec c 0); [reflexivity|]. f_equal. apply IH. destruct Z0; [congruence|auto]. }
        rewrite SP. pose proof (strlen_zero p Z0) as SL. destruct (strlen p) as [|k] eqn:EK; [now right|]. left. apply Z.eqb_neq. intros C. apply I. rewrite <- C.
        rewrite app_nth1 by lia. apply nth_In. lia. }
      split.
      * destruct B as [B|B]; rewrite B; [rewrite andb_false_r|cbn [Nat.ltb Nat.leb andb]]; discriminate.
      * intros (N1 & N2 & N3 & r & E2). exfalso. rewrite EB in E2.
        assert (l = p).
        { clear - E2 I N1. revert l E2 N1. induction p as [|c p IH]; intros [|d l] E2 N1; cbn in E2.
          - reflexivity.
          - injection E2 as <- _. destruct N1. now left.
          - injection E2 as -> _. destruct I. now left.
          - injection E2 as -> E2. f_equal. apply IH; [intros ?; apply I; now right|exact E2|intros ?; apply N1; now right]. }
        subst l. contradiction.
    + rewrite strlen_full by (intros C; apply in_app_or in C; destruct C as [C|[C|[]]]; [contradiction|discriminate]).
      rewrite app_length. cbn [length]. replace (length p + 1 - 1)%nat with (length p) by lia.
      rewrite app_nth2, Nat.sub_diag by lia. cbn [nth]. replace (Nat.ltb 0 (length p + 1)) with true by (symmetry; apply Nat.ltb_lt; lia). cbn [andb Z.eqb Pos.eqb invariant bind].
      rewrite firstn_app, Nat.sub_diag, firstn_all, firstn_O, app_nil_r. split.
      * intros H. injection H as <-. repeat split; auto; [lia|]. eauto.
      * intros (N1 & N2 & N3 & r & E2). f_equal. rewrite EB in E2.
        clear - E2 I N1. revert l E2 N1. induction p as [|c p IH]; intros [|d l] E2 N1; cbn in E2.
        -- reflexivity.
        -- injection E2 as <- _. destruct N1. now left.
        -- injection E2 as -> _. destruct I. now left.
        -- injection E2 as -> E2. f_equal. apply IH; [intros ?; apply I; now right|exact E2|intros ?; apply N1; now right].
  - set (b := fgets 79 bytes) in *. split.
    + destruct (Nat.eqb_spec (length b) 0) as [Z0|Z0]; cbn [negb invariant bind]; [discriminate|].
      destruct (Nat.ltb 0 (strlen b) && (nth (strlen b - 1) b 0 =? 10)) eqn:C; cbn [invariant bind]; [|discriminate].
      apply andb_true_iff in C as [C1 C2]. apply Nat.ltb_lt in C1. apply Z.eqb_eq in C2. exfalso. apply I. rewrite <- C2. apply nth_In. pose proof (strlen_le b). lia.
    + intros (N1 & N2 & N3 & r & E2). exfalso. destruct L as [L|L].
      * apply I. assert (IB : In 10 (firstn 79 bytes)). { rewrite E2. rewrite firstn_app. apply in_or_app. right. destruct (79 - length l)%nat eqn:K; [lia|]. cbn. now left. }
        rewrite EB in IB. rewrite firstn_app, L, Nat.sub_diag, firstn_O, app_nil_r, firstn_all2 in IB by lia. exact IB.
      * subst rest. rewrite app_nil_r in EB. apply I. rewrite <- EB, E2. apply in_or_app. right. now left.
Qed.
Lemma read_cases f : (exists l, readFileLine f = Ok l) \/ readFileLine f = Abort.
Proof.
  destruct f as [b|]; cbn [readFileLine]; [|eauto]. destruct (negb _); cbn [invariant bind]; [|auto]. destruct (_ && _); cbn [invariant bind]; eauto.
Qed.
Definition ok_names (fs : files) (names : list (list Z)) : Prop := forall n, In n names -> names_cpu n -> keeps_frequency fs n.
Lemma dir_path fs n w l : readFileLine (fs ((codes "/sys/devices/system/cpu" ++ codes "/" ++ n ++ codes "/cpufreq") ++ codes (String.append "/" w))) = Ok l <-> setting fs n (codes w) l.
Proof.
  rewrite read_line. unfold setting. replace ((codes "/sys/devices/system/cpu" ++ codes "/" ++ n ++ codes "/cpufreq") ++ codes (String.append "/" w)) with (codes "/sys/devices/system/cpu/" ++ n ++ codes "/cpufreq/" ++ codes w); [reflexivity|].
  change (codes "/sys/devices/system/cpu/") with (codes "/sys/devices/system/cpu" ++ codes "/"). change (codes "/cpufreq/") with (codes "/cpufreq" ++ codes "/").
  change (codes (String.append "/" w)) with (codes "/" ++ codes w). rewrite <- !app_assoc. reflexivity.
Qed.
Lemma first_line_fun f a b : first_line f a -> first_line f b -> a = b.
Proof. rewrite <- !read_line. congruence. Qed.

(** What one cpu contributes *)
Lemma scan_cpu fs n rest c : is_cpu n = true ->
  (readable fs n /\ keeps_frequency fs n /\ scan fs (n :: rest) c = scan fs rest (S c)) \/
  (readable fs n /\ ~ keeps_frequency fs n /\ scan fs (n :: rest) c = Ok (inr true)) \/
  (~ readable fs n /\ scan fs (n :: rest) c = Abort).
Proof.
  intros CP. cbn [scan]. rewrite CP. cbv zeta.
  set (dir := codes "/sys/devices/system/cpu" ++ codes "/" ++ n ++ codes "/cpufreq").
  pose proof (fun l => dir_path fs n "scaling_min_freq" l) as P1. pose proof (fun l => dir_path fs n "scaling_max_freq" l) as P2. pose proof (fun l => dir_path fs n "scaling_governor" l) as P3.
  cbn [String.append] in P1, P2, P3. fold dir in P1, P2, P3.
  assert (NR : forall w, In w [codes "scaling_min_freq"; codes "scaling_max_freq"; codes "scaling_governor"] -> (forall l, ~ setting fs n w l) -> ~ readable fs n).
  { intros w I N R. destruct (R w I) as (l & S). exact (N l S). }
  destruct (read_cases (fs (dir ++ codes "/scaling_min_freq"))) as [(l1 & E1)|E1].
  2:{ right. right. rewrite E1. split; [|reflexivity]. apply (NR (codes "scaling_min_freq")); [now left|]. intros l S. apply P1 in S. congruence. }
  destruct (read_cases (fs (dir ++ codes "/scaling_max_freq"))) as [(l2 & E2)|E2].
  2:{ right. right. rewrite E1, E2. split; [|reflexivity]. apply (NR (codes "scaling_max_freq")); [right; now left|]. intros l S. apply P2 in S. congruence. }
  destruct (read_cases (fs (dir ++ codes "/scaling_governor"))) as [(l3 & E3)|E3].
  2:{ right. right. rewrite E1, E2, E3. split; [|reflexivity]. apply (NR (codes "scaling_governor")); [right; right; now left|]. intros l S. apply P3 in S. congruence. }
  rewrite E1, E2, E3. cbn [bind]. pose proof (proj1 (P1 l1) E1) as S1. pose proof (proj1 (P2 l2) E2) as S2. pose proof (proj1 (P3 l3) E3) as S3.
  assert (R : readable fs n). { intros w [<-|[<-|[<-|[]]]]; eauto. }
  destruct (eqs l3 (codes "performance") || (negb (eqs l1 []) && eqs l1 l2)) eqn:C.
  - left. split; [exact R|]. split; [|reflexivity]. apply orb_true_iff in C as [C|C].
    + apply eqs_eq in C. subst l3. left. exact S3.
    + apply andb_true_iff in C as [C1 C2]. apply eqs_eq in C2. subst l2. right. exists l1. split; [|auto]. intros ->. discriminate.
  - right. left. split; [exact R|]. split; [|reflexivity]. apply orb_false_iff in C as [C1 C2]. intros [K|(f & NE & K1 & K2)].
    + pose proof (first_line_fun _ _ _ S3 K). subst l3. rewrite (proj2 (eqs_eq _ _) eq_refl) in C1. discriminate.
    + pose proof (first_line_fun _ _ _ S1 K1). pose proof (first_line_fun _ _ _ S2 K2). subst l1 l2. rewrite (proj2 (eqs_eq f f) eq_refl), andb_true_r in C2. destruct f; [congruence|discriminate].
Qed.
Lemma scan_inl fs : forall names c k, scan fs names c = Ok (inl k) -> ok_names fs names /\ (c <= k)%nat /\ ((c < k)%nat -> exists n, In n names /\ names_cpu n).
Proof.
  induction names as [|n rest IH]; intros c k H.
  - cbn in H. injection H as <-. repeat split; [intros ? []|lia|lia].
  - destruct (is_cpu n) eqn:CP.
    + destruct (scan_cpu fs n rest c CP) as [(R & K & E)|[(R & K & E)|(R & E)]]; rewrite E in H; try discriminate.
      destruct (IH _ _ H) as (O & L & X). repeat split; [|lia|].
      * intros m [<-|I] N; [exact K|exact (O m I N)].
      * intros _. exists n. split; [now left|]. now apply is_cpu_iff.
    + cbn [scan] in H. rewrite CP in H. destruct (IH _ _ H) as (O & L & X). repeat split; [|lia|].
      * intros m [<-|I] N; [apply is_cpu_iff in N; congruence|exact (O m I N)].
      * intros C. destruct (X C) as (m & I & N). exists m. split; [now right|exact N].
Qed.
Lemma scan_inr fs : forall names c b, scan fs names c = Ok (inr b) -> b = true /\ exists n, In n names /\ names_cpu n /\ ~ keeps_frequency fs n.
Proof.
  induction names as [|n rest IH]; intros c b H; [discriminate|]. destruct (is_cpu n) eqn:CP.
  - destruct (scan_cpu fs n rest c CP) as [(R & K & E)|[(R & K & E)|(R & E)]]; rewrite E in H; try discriminate.
    + destruct (IH _ _ H) as (-> & m & I & N). split; [reflexivity|]. exists m. split; [now right|exact N].
    + injection H as <-. split; [reflexivity|]. exists n. split; [now left|]. split; [now apply is_cpu_iff|exact K].
  - cbn [scan] in H. rewrite CP in H. destruct (IH _ _ H) as (-> & m & I & N). split; [reflexivity|]. exists m. split; [now right|exact N].
Qed.
Lemma scan_total fs : forall names c, (forall n, In n names -> names_cpu n -> readable fs n) -> exists r, scan fs names c = Ok r.
Proof.
  induction names as [|n rest IH]; intros c H; [cbn; eauto|]. assert (H' : forall m, In m rest -> names_cpu m -> readable fs m) by (intros m I; apply H; now right).
  destruct (is_cpu n) eqn:CP.
  - destruct (scan_cpu fs n rest c CP) as [(R & K & E)|[(R & K & E)|(R & E)]]; rewrite E; eauto. exfalso. apply R. apply H; [now left|now apply is_cpu_iff].
  - cbn [scan]. rewrite CP. auto.
Qed.
Lemma scan_mono fs : forall names c r, scan fs names c = Ok (inl r) -> (exists n, In n names /\ names_cpu n) -> (c < r)%nat.
Proof.
  induction names as [|n rest IH]; intros c r H (m & I & N); [destruct I|]. destruct (is_cpu n) eqn:CP.
  - destruct (scan_cpu fs n rest c CP) as [(R & K & E)|[(R & K & E)|(R & E)]]; rewrite E in H; try discriminate. destruct (scan_inl _ _ _ _ H). lia.
  - cbn [scan] in H. rewrite CP in H. destruct I as [<-|I]; [apply is_cpu_iff in N; congruence|]. apply (IH _ _ H). eauto.
Qed.

(** "No scaling" is answered only if there is a cpu and every cpu keeps its frequency. *)
Theorem C116_no_scaling : forall fs dir left_open, doCFPFS fs dir = Ok (false, left_open) ->
  exists names, dir = Some names /\ left_open = 0%nat /\ (exists n, In n names /\ names_cpu n) /\
    forall n, In n names -> names_cpu n -> keeps_frequency fs n.
Proof.
  intros fs [names|] o H; cbn [doCFPFS] in H; [|discriminate]. destruct (scan fs names 0) as [[k|b]| | |] eqn:E; cbn [bind] in H; try discriminate.
  - destruct (Nat.ltb 0 k) eqn:K; cbn [invariant bind] in H; [|discriminate]. injection H as <-. apply Nat.ltb_lt in K. destruct (scan_inl _ _ _ _ E) as (O & _ & X). exists names. repeat split; auto.
  - injection H as -> _. destruct (scan_inr _ _ _ _ E). discriminate.
Qed.
Print Assumptions C116_no_scaling.

(** "Scaling" is answered only if the directory cannot be listed or a cpu does not keep its
    frequency. *)
Theorem C116_scaling : forall fs dir left_open, doCFPFS fs dir = Ok (true, left_open) ->
  dir = None \/ exists names n, dir = Some names /\ In n names /\ names_cpu n /\ ~ keeps_frequency fs n.
Proof.
  intros fs [names|] o H; cbn [doCFPFS] in H; [|now left]. right. destruct (scan fs names 0) as [[k|b]| | |] eqn:E; cbn [bind] in H; try discriminate.
  - destruct (Nat.ltb 0 k) eqn:K; cbn [invariant bind] in H; discriminate.
  - destruct (scan_inr _ _ _ _ E) as (_ & n & I & N & K). exists names, n. auto.
Qed.
Print Assumptions C116_scaling.

(** There is an answer whenever the directory cannot be listed, or holds a cpu and the files
    of all cpus can be read as lines; what is missing is the answer in the other cases. *)
Theorem C116_answers_partial : forall fs dir,
  (forall names, dir = Some names -> (exists n, In n names /\ names_cpu n) /\ forall n, In n names -> names_cpu n -> readable fs n) ->
  exists b o, doCFPFS fs dir = Ok (b, o).
Proof.
  intros fs [names|] H; cbn [doCFPFS]; [|eauto]. destruct (H names eq_refl) as (X & R). destruct (scan_total fs names 0 R) as ([k|b] & E); rewrite E; cbn [bind]; [|eauto].
  pose proof (scan_mono _ _ _ _ E X) as K. apply Nat.ltb_lt in K. rewrite K. cbn [invariant bind]. eauto.
Qed.
Print Assumptions C116_answers_partial.

(** False in general: an empty file of one cpu (or a file with a zero byte or a long first
    line) ends the program, instead of counting as "may scale". *)
Theorem C116_answers_refuted : exists fs names n, In n names /\ names_cpu n /\ (forall m, In m names -> names_cpu m -> m = n) /\
  fs (codes "/sys/devices/system/cpu/" ++ n ++ codes "/cpufreq/scaling_governor") = Some [] /\ doCFPFS fs (Some names) = Abort.
Proof.
  exists (fun _ => Some []), [codes "cpu0"; codes "cpuidle"], (codes "cpu0"). split; [now left|]. split; [exists 48, []; split; [reflexivity|lia]|]. split.
  - intros m [<-|[<-|[]]] N; [reflexivity|]. apply is_cpu_iff in N. discriminate.
  - split; reflexivity.
Qed.
Print Assumptions C116_answers_refuted.

(** False of the code: the directory is closed before returning. It stays open exactly when
    a cpu was found that may scale. *)
Theorem C116_left_open : forall fs dir b o, doCFPFS fs dir = Ok (b, o) -> o = (if b then match dir with Some _ => 1 | None => 0 end else 0)%nat.
Proof.
  intros fs [names|] b o H; cbn [doCFPFS] in H; [|injection H as <- <-; reflexivity].
  destruct (scan fs names 0) as [[k|b']| | |] eqn:E; cbn [bind] in H; try discriminate.
  - destruct (Nat.ltb 0 k); cbn [invariant bind] in H; [injection H as <- <-; reflexivity|discriminate].
  - destruct (scan_inr _ _ _ _ E) as (-> & _). injection H as <- <-. reflexivity.
Qed.
Print Assumptions C116_left_open.
Theorem C116_closes_refuted : exists fs dir, doCFPFS fs dir = Ok (true, 1%nat).
Proof. exists (fun _ => None), (Some [codes "cpu0"]). reflexivity. Qed.
Print Assumptions C116_closes_refuted.

Definition scale_flag (r : res globals) : bool := match r with Ok g => may_scale g | _ => true end.
(** With the default setting the clock is calibrated only if every cpu keeps its frequency,
    whatever was measured; and calling it calibrated and free of scaling under any setting
    that checks means the same. *)
Theorem C116_refuses : forall fs dir b o max rate g g', Beqb (clock_rate g) minus_inf = true ->
  doCFPFS fs dir = Ok (b, o) -> calibrateClock (Measured b max rate) g = Ok g' ->
  mode g = ModeNo \/ (mode g <> ModeYes /\ may_scale g' = false) ->
  exists names, dir = Some names /\ (exists n, In n names /\ names_cpu n) /\ forall n, In n names -> names_cpu n -> keeps_frequency fs n.
Proof.
  intros fs dir b o mx rate g g' U A C M. assert (B : b = false).
  { destruct b; [|reflexivity]. exfalso. unfold calibrateClock in C. rewrite U in C. cbn [negb m_scaling m_max_measure m_rate] in C. unfold checkForPossibleFrequencyScaling, setClockRate in C. destruct g as [cr ic mr md ms].
    cbn [mode clock_rate inverse_clock_rate_tfrac max_recalibrate_measure_time may_scale negb] in *.
    destruct M as [-> | [NY MS]]; [discriminate C|].
    destruct md; cbn [is_use_tod is_yes is_no negb bind clock_rate inverse_clock_rate_tfrac max_recalibrate_measure_time mode may_scale] in C; try congruence;
      try (apply (f_equal scale_flag) in C; cbn [scale_flag may_scale] in C; rewrite MS in C; discriminate C);
      (destruct rate as [r|]; [rewrite U in C; cbn [invariant bind] in C; destruct (Bltb (of_Z mx) _); cbn [invariant bind clock_rate] in C; [|discriminate]|cbn [bind clock_rate] in C];
       (destruct (Bltb (of_Z 200) _); cbn [invariant bind] in C; [apply (f_equal scale_flag) in C; cbn [scale_flag may_scale] in C; rewrite MS in C; discriminate C|discriminate])). }
  subst b. destruct (C116_no_scaling _ _ _ A) as (names & E & _ & X & K). exists names. auto.
Qed.
Print Assumptions C116_refuses.

Definition two_cpus : files := fun path =>
  if eqs path (codes "/sys/devices/system/cpu/cpu0/cpufreq/scaling_governor") then Some (codes "performance" ++ [10])
  else if eqs path (codes "/sys/devices/system/cpu/cpu1/cpufreq/scaling_min_freq") then Some (codes "2400000" ++ [10])
  else if eqs path (codes "/sys/devices/system/cpu/cpu1/cpufreq/scaling_max_freq") then Some (codes "2400000" ++ [10; 33])
  else None.
Example C116_example :
  doCFPFS two_cpus (Some [codes "."; codes "cpufreq"; codes "cpu1"; codes "cpu0"]) = Ok (false, 0%nat) /\
  doCFPFS two_cpus (Some [codes "cpu2"; codes "cpu0"]) = Ok (true, 1%nat) /\ doCFPFS two_cpus None = Ok (true, 0%nat) /\
  doCFPFS two_cpus (Some [codes "cpufreq"]) = Abort.
Proof. vm_compute. repeat split. Qed.
Definition calibrates (r : res globals) : bool := match r with Ok g => negb (may_scale g) | _ => false end.
Example C116_refuses_example : Beqb (clock_rate globals0) minus_inf = true /\
  doCFPFS two_cpus (Some [codes "cpu1"; codes "cpu0"]) = Ok (false, 0%nat) /\
  calibrates (calibrateClock (Measured false 500 (Some (of_Z 2400))) globals0) = true /\ mode globals0 = ModeNo.
Proof. split; [vm_compute; reflexivity|]. split; [vm_compute; reflexivity|]. split; [vm_compute; reflexivity|reflexivity]. Qed.
