(** C94: the quantiles printed by StatsQuantile. *)
From Coq Require Import List Arith ZArith QArith Reals NArith Lia Lra Bool Permutation Sorted ZifyBool ZifyNat ZifyN.
From Flocq Require Import Core BinarySingleNaN.
From Verif Require Import Common CommonFacts ListFacts Double64 Arith Double_Model Double_Proofs Quantile_Model Quantile_Spec Quantile_Facts Quantile_Merge Quantile_Bin Quantile_Collapse Quantile_Proofs Quantile_Query Quantile_Error Quantile_History Quantile_Eps Quantile_Props QD_Proofs QD_Props PrintQ_Model PrintQ_Spec PrintQ_Proofs.
Import ListNotations.
Local Open Scope Z_scope.

Lemma history_J h s : legal h -> small h -> samples h <> [] -> Z.of_nat (length (samples h)) <= hbound h -> eval h = Ok s ->
  exists F E SM, J F (samples h) E (hbound h) SM s /\ SM = isort (weighted (retained s)) /\ Z.of_nat (length (samples h)) < 10 ^ 14 /\
    (forall s', J F (samples h) E (hbound h) SM s' -> Permutation (weighted (retained s')) (weighted (retained s))).
Proof.
  intros Lg Sm Nh Hb Es. destruct (eval_basic h Lg Sm) as (s1 & F & P & E & Ee & I & C & _ & _ & Nb). rewrite Es in Ee. injection Ee as <-.
  assert (Sc : Z.of_nat (length (samples h)) < 10 ^ 14) by (destruct h; cbn [small] in Sm; apply Sm).
  assert (LX : (1 <= length (samples h))%nat) by (destruct (samples h); [congruence|simpl; lia]).
  pose proof I as [R Cn K D Er]. destruct R as [[R N]|(_ & -> & ->)]; [|unfold fcount in Cn; simpl in Cn; lia].
  exists F, E, (isort (weighted (retained s))). rewrite (weighted_retained s F P R). split; [exists P; auto 8|]. split; [reflexivity|]. split; [exact Sc|].
  intros s' (P' & I' & R' & C' & N' & H). rewrite (weighted_retained s' F P' R'). rewrite <- (isort_perm (massL (blist (nbuffers s') F P'))), H. apply isort_perm.
Qed.
Lemma answers_shows M X r : 1 <= Z.of_nat (length X) < 10 ^ 14 -> answers X (isort M) r -> in_unit (r_arg r) ->
  forall f tol, (Rabs (B2R (r_arg r) - f) <= tol)%R ->
  shows M (IZR (Z.of_nat (length X)) * f) (1 + IZR (Z.of_nat (length X)) * tol) r.
Proof.
  intros Hn (v & V & Q) [Fq Hq] f tol T. destruct (drank_range _ Hn _ Fq Hq) as [D1 D2]. exists v, (drank (Z.of_nat (length X)) (r_arg r)). split; [exact V|]. split.
  - apply element_isort; [clear - D1; lia|exact Q].
  - set (n := Z.of_nat (length X)) in *. set (q := B2R (r_arg r)) in *. set (d := drank n (r_arg r)) in *.
    assert (N0 : (1 <= IZR n)%R) by (apply IZR_le; clear - Hn; lia).
    pose proof (Zceil_ub (IZR n * q)) as U. pose proof (Zceil_lb (IZR n * q)) as L. assert (NQ : (0 <= IZR n * q)%R) by (apply Rmult_le_pos; lra).
    assert (A1 : (IZR n * q - 1 <= IZR d)%R). { destruct D2 as [D2 _]. apply IZR_le in D2. rewrite minus_IZR in D2. lra. }
    assert (A2 : (IZR d <= IZR n * q + 1)%R). { destruct D2 as [_ D2]. destruct (Z.max_spec 1 (Zceil (IZR n * q))) as [[_ H]|[_ H]]; rewrite H in D2; apply IZR_le in D2; lra. }
    apply Rabs_le_inv in T. assert (IZR n * - tol <= IZR n * (q - f))%R by (apply Rmult_le_compat_l; lra). assert (IZR n * (q - f) <= IZR n * tol)%R by (apply Rmult_le_compat_l; lra).
    apply Rabs_le. lra.
Qed.
Lemma answers_ascending M X rows : 1 <= Z.of_nat (length X) < 10 ^ 14 -> Forall (answers X (isort M)) rows -> Forall in_unit (map r_arg rows) ->
  StronglySorted (fun a b : double => B2R a <= B2R b)%R (map r_arg rows) -> ascending rows.
Proof.
  intros Hn Ha Hu So i j ri rj vi vj Hij Ei Ej Vi Vj.
  assert (Le : (B2R (r_arg ri) <= B2R (r_arg rj))%R).
  { revert i j ri rj vi vj Hij Ei Ej Vi Vj. induction rows as [|r rows IH]; intros; [destruct i; discriminate|].
    cbn [map] in So, Hu. inversion So as [|? ? So1 So2]; subst. inversion Hu; subst. inversion Ha; subst. destruct i as [|i], j as [|j]; cbn [nth_error] in Ei, Ej; try lia.
    - injection Ei as <-. injection Ej as <-. lra.
    - injection Ei as <-. apply nth_error_In in Ej. rewrite Forall_forall in So2. apply So2. now apply in_map.
    - eapply (IH ltac:(assumption) ltac:(assumption) So1 i j); eauto. lia. }
  rewrite Forall_forall in Ha, Hu. pose proof (Ha ri (nth_error_In _ _ Ei)) as (v1 & W1 & Q1). pose proof (Ha rj (nth_error_In _ _ Ej)) as (v2 & W2 & Q2).
  rewrite Vi in W1. injection W1 as <-. rewrite Vj in W2. injection W2 as <-.
  pose proof (Hu _ (in_map r_arg _ _ (nth_error_In _ _ Ei))) as U1. pose proof (Hu _ (in_map r_arg _ _ (nth_error_In _ _ Ej))) as U2.
  pose proof (drank_mono _ _ _ Hn U1 U2 Le) as Dm. pose proof (isort_sorted M) as Sm.
  assert (G : forall l, StronglySorted Z.le l -> forall a b x y, (a <= b)%nat -> nth_error l a = Some x -> nth_error l b = Some y -> x <= y).
  { clear. intros l S. induction S as [|z l S IH H]; intros a b x y Hab Ha Hb; [destruct a; discriminate|]. destruct a as [|a], b as [|b]; cbn [nth_error] in *; try lia.
    - injection Ha as <-. injection Hb as <-. lia.
    - injection Ha as <-. apply nth_error_In in Hb. rewrite Forall_forall in H. now apply H.
    - eapply (IH a b); eauto. lia. }
  eapply (G _ Sm _ _ _ _ _ Q1 Q2). Unshelve. clear - Dm. lia.
Qed.
Lemma sorted_weaken (l : list double) : StronglySorted (fun a b => B2R a < B2R b)%R l -> StronglySorted (fun a b => B2R a <= B2R b)%R l.
Proof. induction 1; constructor; auto. eapply Forall_impl; [|eassumption]. intros b Hb. cbv beta in Hb |- *. lra. Qed.

(** ** Ranges. For up to 8192 ranges printTextRanges prints exactly one quantile for
    each i/N, 0 < i < N, in this order: the argument given to getQuantile is within
    1e-12 of i/N, the value printed has a rank within 1 + n*1e-12 of n*i/N among the
    values the object stands for, the values never decrease, and every tenth carries
    its percentage. *)
Theorem C94_ranges : forall h s print_nrange nranges, legal h -> small h -> samples h <> [] -> Z.of_nat (length (samples h)) <= hbound h -> eval h = Ok s ->
  let N := if nranges =? -1 then print_nrange else nranges in let n := Z.of_nat (length (samples h)) in
  1 <= N <= 8192 ->
  exists rows s', printTextRanges ieee (Z.to_nat N) s print_nrange nranges = Ok (Some rows, s') /\
    Z.of_nat (length rows) = N - 1 /\
    (forall i r, nth_error rows i = Some r ->
       in_unit (r_arg r) /\ (Rabs (B2R (r_arg r) - IZR (Z.of_nat i + 1) / IZR N) <= / 1000000000000)%R /\
       shows (weighted (retained s)) (IZR n * (IZR (Z.of_nat i + 1) / IZR N)) (1 + IZR n * / 1000000000000) r /\
       r_label r = if Z.of_nat i mod 10 =? 0 then Some (dmul (r_arg r) (of_Z 100)) else None) /\
    ascending rows /\ Permutation (weighted (retained s')) (weighted (retained s)).
Proof.
  intros h s pn nr Lg Sm Nh Hb Es N n HN. destruct (history_J h s Lg Sm Nh Hb Es) as (F & E & SM & Js & -> & Sc & Pm).
  destruct (steps_exact N ltac:(clear - HN; lia) ltac:(clear - HN; lia)) as (args & E1 & Len & Ha & So).
  assert (Hn : 1 <= Z.of_nat (length (samples h)) < 10 ^ 14) by (destruct (samples h); [congruence|cbn [length] in *; clear - Sc; lia]).
  assert (U : Forall in_unit args). { apply Forall_forall. intros a Ia. apply In_nth_error in Ia. destruct Ia as [j Hj]. destruct (Ha j a Hj) as (Fa & _ & B). split; [exact Fa|lra]. }
  destruct (text_rows F (samples h) E (hbound h) _ Nh Sc Hb (Z.to_nat N) s 0 _ _ args Js E1 U) as (rows & s' & R1 & Js' & R2 & R3 & R4).
  exists rows, s'. split; [|split; [|split; [|split]]].
  - unfold printTextRanges. fold N. destruct Js as (P & _ & _ & C & _). rewrite C. replace (Z.of_nat (length (samples h)) =? 0) with false by (clear - Hn; lia).
    cbn [ndiv of_int ieee]. rewrite R1. reflexivity.
  - rewrite <- Len, <- R2, map_length. reflexivity.
  - intros i r Hr. assert (Hi : nth_error args i = Some (r_arg r)) by (rewrite <- R2; now apply map_nth_error). destruct (Ha i _ Hi) as (Fa & Er & B).
    assert (Ui : in_unit (r_arg r)) by (split; [exact Fa|lra]). split; [exact Ui|].
    assert (Lj : Z.of_nat i + 1 <= 8192) by (assert (i < length args)%nat by (apply nth_error_Some; congruence); clear - H Len HN; lia). apply IZR_le in Lj.
    assert (T : (Rabs (B2R (r_arg r) - IZR (Z.of_nat i + 1) / IZR N) <= / 1000000000000)%R) by (eapply Rle_trans; [exact Er|]; unfold u; lra).
    split; [exact T|]. split; [|exact (R4 i r Hr)]. apply answers_shows; auto. rewrite Forall_forall in R3. apply R3. eapply nth_error_In; eauto.
  - eapply answers_ascending; [exact Hn|exact R3|now rewrite R2|rewrite R2; now apply sorted_weaken].
  - now apply Pm.
Qed.
Print Assumptions C94_ranges.
(** [ex_hist] (55 samples in two objects that were merged) meets the hypotheses; the
    values printed for it. *)
Definition printed {B : Type} (f : quantile -> res (B * quantile)) (g : B -> list (row ieee)) : res (list (option Z)) :=
  let! s := eval ex_hist in let! (b, _) := f s in Ok (map r_val (g b)).
Definition rows_of (o : option (list (row ieee))) : list (row ieee) := match o with Some l => l | None => [] end.
Example C94_ranges_ex : legal ex_hist /\ small ex_hist /\ samples ex_hist <> [] /\ Z.of_nat (length (samples ex_hist)) <= hbound ex_hist /\
  (exists s, eval ex_hist = Ok s) /\ printed (fun s => printTextRanges ieee 5 s 20 5) rows_of = Ok (map Some [12; 22; 44; 52]).
Proof.
  destruct C35_accounting_partial_ex as (L & S & _). split; [exact L|]. split; [exact S|]. split; [vm_compute; discriminate|]. split; [vm_compute; discriminate|].
  split; [eexists; vm_compute; reflexivity|]. vm_compute. reflexivity.
Qed.

(** For every other positive number of ranges the loop still ends, but the number of
    quantiles printed can be off (by at most 1024), because the sums of the step are
    rounded and the test against 1 has a tolerance of 1e-12. *)
Theorem C94_ranges_any : forall h s print_nrange nranges, legal h -> small h -> samples h <> [] -> Z.of_nat (length (samples h)) <= hbound h -> eval h = Ok s ->
  let N := if nranges =? -1 then print_nrange else nranges in let n := Z.of_nat (length (samples h)) in
  2 <= N < 2 ^ 31 ->
  exists rows s', printTextRanges ieee (S (Z.to_nat (N + 1024))) s print_nrange nranges = Ok (Some rows, s') /\
    N - 1 - 1024 <= Z.of_nat (length rows) <= N + 1024 /\
    (forall i r, nth_error rows i = Some r ->
       in_unit (r_arg r) /\ (Rabs (B2R (r_arg r) - IZR (Z.of_nat i + 1) / IZR N) <= / 4000000)%R /\
       shows (weighted (retained s)) (IZR n * (IZR (Z.of_nat i + 1) / IZR N)) (1 + IZR n * / 4000000) r /\
       r_label r = if Z.of_nat i mod 10 =? 0 then Some (dmul (r_arg r) (of_Z 100)) else None) /\
    ascending rows /\ Permutation (weighted (retained s')) (weighted (retained s)).
Proof.
  intros h s pn nr Lg Sm Nh Hb Es N n HN. destruct (history_J h s Lg Sm Nh Hb Es) as (F & E & SM & Js & -> & Sc & Pm).
  destruct (steps_any N ltac:(clear - HN; lia) ltac:(clear - HN; lia)) as (args & E1 & Len & Ha & So).
  assert (Hn : 1 <= Z.of_nat (length (samples h)) < 10 ^ 14) by (destruct (samples h); [congruence|cbn [length] in *; clear - Sc; lia]).
  assert (U : Forall in_unit args). { apply Forall_forall. intros a Ia. apply In_nth_error in Ia. destruct Ia as [j Hj]. destruct (Ha j a Hj) as (Fa & _ & B). split; [exact Fa|lra]. }
  destruct (text_rows F (samples h) E (hbound h) _ Nh Sc Hb _ s 0 _ _ args Js E1 U) as (rows & s' & R1 & Js' & R2 & R3 & R4).
  exists rows, s'. split; [|split; [|split; [|split]]].
  - unfold printTextRanges. fold N. destruct Js as (P & _ & _ & C & _). rewrite C. replace (Z.of_nat (length (samples h)) =? 0) with false by (clear - Hn; lia).
    cbn [ndiv of_int ieee]. rewrite R1. reflexivity.
  - replace (length rows) with (length args) by now rewrite <- R2, map_length. exact Len.
  - intros i r Hr. assert (Hi : nth_error args i = Some (r_arg r)) by (rewrite <- R2; now apply map_nth_error). destruct (Ha i _ Hi) as (Fa & Er & B).
    assert (Ui : in_unit (r_arg r)) by (split; [exact Fa|lra]). split; [exact Ui|]. split; [exact Er|]. split; [|exact (R4 i r Hr)].
    apply answers_shows; auto. rewrite Forall_forall in R3. apply R3. eapply nth_error_In; eauto.
  - eapply answers_ascending; [exact Hn|exact R3|now rewrite R2|rewrite R2; now apply sorted_weaken].
  - now apply Pm.
Qed.
Print Assumptions C94_ranges_any.
Example C94_ranges_any_ex : 2 <= (if -1 =? -1 then 10000 else -1) < 2 ^ 31 /\ samples ex_hist <> [].
Proof. split; [simpl; lia|vm_compute; discriminate]. Qed.

Lemma Rle_bool_true_inv x y : Rle_bool x y = true -> (x <= y)%R.
Proof. destruct (Rle_bool_spec x y); [auto|discriminate]. Qed.
(** The same double, with a closed proof of its validity (keeps computing cheap). *)
Definition fresh (x : double) : double :=
  match bool_dec (SpecFloat.valid_binary 53 1024 (B2SF x)) true with left H => SF2B (B2SF x) H | right _ => x end.
Lemma fresh_id x : fresh x = x.
Proof. unfold fresh. destruct bool_dec; [apply SF2B_B2SF|reflexivity]. Qed.
Definition low : double := ddiv (of_Z 1) (of_Z (2 ^ 40)).
Definition high : double := ddiv (of_Z 1023) (of_Z 1024).
Lemma easy_below q : Bleb low q && Bleb q high = true -> below_one ieee q = true.
Proof.
  intros H. apply andb_true_iff in H. destruct H as [H1 H2].
  assert (Fl : is_finite low = true) by (vm_compute; reflexivity). assert (Fh : is_finite high = true) by (vm_compute; reflexivity).
  assert (El : B2R low = (/ 1099511627776)%R).
  { assert (S : B2SF low = SpecFloat.S754_finite false 4503599627370496 (-92)) by (vm_compute; reflexivity). rewrite <- SF2R_B2SF, S. unfold SF2R, F2R. cbn [Fnum Fexp cond_Zopp].
    change (bpow radix2 (-92)) with (/ 4951760157141521099596496896)%R. lra. }
  assert (Eh : B2R high = (1023 / 1024)%R).
  { assert (S : B2SF high = SpecFloat.S754_finite false 8998403161718784 (-53)) by (vm_compute; reflexivity). rewrite <- SF2R_B2SF, S. unfold SF2R, F2R. cbn [Fnum Fexp cond_Zopp].
    change (bpow radix2 (-53)) with (/ 9007199254740992)%R. lra. }
  assert (Fq : is_finite q = true). { clear - H1 H2 Fl Fh. destruct q as [|[|]| |]; try reflexivity; exfalso; [vm_compute in H1|vm_compute in H2|vm_compute in H1]; discriminate. }
  rewrite leb_fin in H1, H2 by assumption. rewrite El in H1. rewrite Eh in H2.
  pose proof (Rle_bool_true_inv _ _ H1) as L1. pose proof (Rle_bool_true_inv _ _ H2) as L2. clear H1 H2 El Eh Fl Fh.
  apply below_yes; [exact Fq|rewrite Rabs_pos_eq by lra; lra|lra].
Qed.
Fixpoint how_many (fuel : nat) (lo hi q step : double) (acc : Z) : option Z :=
  match fuel with
  | O => None
  | S fuel => if (if Bleb lo q && Bleb q hi then true else below_one ieee q) then how_many fuel lo hi (fresh (dadd q step)) step (acc + 1) else Some acc
  end.
Lemma how_many_spec fuel : forall q step args acc, steps fuel q step = Some args -> how_many fuel low high q step acc = Some (acc + Z.of_nat (length args)).
Proof.
  induction fuel as [|fuel IH]; intros q step args acc E; [discriminate|]. cbn [steps] in E. cbn [how_many].
  assert (B : (if Bleb low q && Bleb q high then true else below_one ieee q) = below_one ieee q).
  { destruct (Bleb low q && Bleb q high) eqn:Eq; [|reflexivity]. now rewrite (easy_below q Eq). }
  rewrite B. destruct (below_one ieee q).
  - rewrite fresh_id. destruct (steps fuel (dadd q step) step) as [l|] eqn:El; [|discriminate]. cbn [option_map] in E. apply some_inj in E. subst args. rewrite (IH _ _ _ (acc + 1) El). f_equal. cbn [length]. lia.
  - apply some_inj in E. subst args. f_equal. cbn [length]. lia.
Qed.
(** It is off: with 36376 ranges one quantile too many is printed, for every object. *)
Theorem C94_count_refuted : forall h s, legal h -> small h -> samples h <> [] -> Z.of_nat (length (samples h)) <= hbound h -> eval h = Ok s ->
  exists rows s', printTextRanges ieee (S (Z.to_nat (36376 + 1024))) s 20 36376 = Ok (Some rows, s') /\ Z.of_nat (length rows) = 36376.
Proof.
  intros h s Lg Sm Nh Hb Es. destruct (history_J h s Lg Sm Nh Hb Es) as (F & E & SM & Js & -> & Sc & Pm).
  destruct (steps_any 36376 ltac:(lia) ltac:(lia)) as (args & E1 & Len & Ha & So).
  assert (U : Forall in_unit args). { apply Forall_forall. intros a Ia. apply In_nth_error in Ia. destruct Ia as [j Hj]. destruct (Ha j a Hj) as (Fa & _ & B). split; [exact Fa|lra]. }
  destruct (text_rows F (samples h) E (hbound h) _ Nh Sc Hb _ s 0 _ _ args Js E1 U) as (rows & s' & R1 & Js' & R2 & R3 & R4).
  exists rows, s'. split.
  - unfold printTextRanges. destruct Js as (P & _ & _ & C & _). rewrite C. replace (Z.of_nat (length (samples h)) =? 0) with false by (clear - Nh; destruct (samples h); [congruence|reflexivity]).
    change (36376 =? -1) with false. cbv iota. cbn [ndiv of_int ieee]. rewrite R1. reflexivity.
  - replace (length rows) with (length args) by now rewrite <- R2, map_length.
    pose proof (how_many_spec _ _ _ _ 0 E1) as K.
    assert (K' : how_many (S (Z.to_nat (36376 + 1024))) low high (ddiv (of_Z 1) (of_Z 36376)) (ddiv (of_Z 1) (of_Z 36376)) 0 = Some 36376) by (vm_cast_no_check (eq_refl (Some 36376))).
    rewrite K' in K. apply some_inj in K. symmetry. exact K.
Qed.
Print Assumptions C94_count_refuted.
Example C94_count_refuted_ex : samples ex_hist <> [] /\ Z.of_nat (length (samples ex_hist)) <= hbound ex_hist.
Proof. split; vm_compute; discriminate. Qed.

(** ** Other numbers of ranges. 0 ranges prints no quantile; a negative number aborts;
    an object without samples prints none, whatever is asked; more samples than the
    bound aborts as soon as a quantile is wanted. *)
Lemma step_neg N : - 2 ^ 31 <= N < 0 -> let q := ddiv (of_Z 1) (of_Z N) in is_finite q = true /\ (- 2 <= B2R q <= - / 1099511627776)%R.
Proof.
  intros HN. cbv zeta. destruct one_spec as [E1 F1]. destruct (of_Z_spec N ltac:(lia)) as [EN FN]. rewrite rnd_Z in EN by lia.
  assert (R1 : (-2147483648 <= IZR N)%R) by (apply IZR_le; lia). assert (R2 : (IZR N <= -1)%R) by (apply (IZR_le N (-1)); lia).
  assert (I1 : (/ 2147483648 <= / - IZR N)%R) by (apply Rinv_le_contravar; lra). assert (I2 : (/ - IZR N <= 1)%R) by (rewrite <- Rinv_1; apply Rinv_le_contravar; lra).
  assert (Eq : (1 / IZR N = - / - IZR N)%R) by (rewrite Rinv_opp; unfold Rdiv; lra).
  destruct (ddiv_spec (of_Z 1) (of_Z N) 1 F1) as [E F]; [rewrite EN; lra|lia|rewrite E1, EN, Eq, Rabs_Ropp; rewrite Rabs_pos_eq by lra; change (bpow radix2 1) with 2%R; lra|].
  split; [exact F|]. rewrite E, E1, EN, Eq. split.
  - assert (F2 : generic_format radix2 fexp64 (-2)) by (replace (-2)%R with (F2R (Float radix2 (-1) 1)) by (unfold F2R; simpl; lra); apply (fmt_F2R (-1) 1); lia).
    rewrite <- (rnd_id _ F2). apply rnd_le. lra.
  - assert (F2 : generic_format radix2 fexp64 (- / 1099511627776)).
    { replace (- / 1099511627776)%R with (F2R (Float radix2 (-1) (-40))) by (unfold F2R; cbn [Fnum Fexp]; change (bpow radix2 (-40)) with (/ 1099511627776)%R; lra). apply (fmt_F2R (-1) (-40)); lia. }
    rewrite <- (rnd_id _ F2). apply rnd_le. lra.
Qed.
Theorem C94_other : forall h s fuel print_nrange nranges, legal h -> small h -> eval h = Ok s ->
  let N := if nranges =? -1 then print_nrange else nranges in
  (samples h = [] -> printTextRanges ieee fuel s print_nrange nranges = Ok (None, s) /\ printTextTail ieee (S fuel) s = Ok ([], s) /\ printRome ieee fuel s print_nrange = Ok (None, s)) /\
  (samples h <> [] -> N = 0 -> printTextRanges ieee (S fuel) s print_nrange nranges = Ok (Some [], s)) /\
  (samples h <> [] -> - 2 ^ 31 <= N < 0 -> printTextRanges ieee (S fuel) s print_nrange nranges = Abort) /\
  (samples h <> [] -> hbound h < Z.of_nat (length (samples h)) -> 2 <= N <= 8192 -> printTextRanges ieee (S fuel) s print_nrange nranges = Abort).
Proof.
  intros h s fuel pn nr Lg Sm Es N. pose proof (fun q => C93_refused h s q false Lg Sm Es) as Rf. destruct (eval_basic h Lg Sm) as (s1 & F & P & E & Ee & I & C & _ & _ & Nb). rewrite Es in Ee. injection Ee as <-. clear I.
  unfold printTextRanges, printTextTail, printRome. fold N. rewrite C. split; [|split; [|split]].
  - intros ->. cbn [length Z.of_nat Z.eqb Z.leb Z.compare]. split; [reflexivity|]. split; [|reflexivity]. cbn [tail_loop].
    assert (K : @nle ieee (of_int 10) (nmul (tenth ieee) (of_int 0)) = false) by (vm_compute; reflexivity). rewrite K. reflexivity.
  - intros Nh ->. replace (Z.of_nat (length (samples h)) =? 0) with false by (clear - Nh; destruct (samples h); [congruence|reflexivity]). cbn [text_ranges_loop].
    assert (K : below_one ieee (@ndiv ieee (of_int 1) (of_int 0)) = false) by (vm_compute; reflexivity). rewrite K. reflexivity.
  - intros Nh HN. replace (Z.of_nat (length (samples h)) =? 0) with false by (clear - Nh; destruct (samples h); [congruence|reflexivity]). cbn [text_ranges_loop].
    destruct (step_neg N HN) as [Fq Bq]. cbn [ndiv of_int ieee]. rewrite (below_yes _ Fq). 2:{ rewrite Rabs_left by lra. lra. } 2:{ lra. }
    destruct (Rf (ddiv (of_Z 1) (of_Z N))) as (Rf1 & _). rewrite (Rf1 Nh). { reflexivity. } intros [_ U]. lra.
  - intros Nh Hb HN. replace (Z.of_nat (length (samples h)) =? 0) with false by (clear - Nh; destruct (samples h); [congruence|reflexivity]). cbn [text_ranges_loop].
    cbn [ndiv of_int ieee]. set (q := ddiv (of_Z 1) (of_Z N)).
    assert (Bl : below_one ieee q = true).
    { destruct (steps_exact N ltac:(clear - HN; lia) ltac:(clear - HN; lia)) as (args & E1 & Len & _). destruct (Z.to_nat N) as [|m]; [discriminate|]. cbn [steps] in E1. fold q in E1.
      destruct (below_one ieee q); [reflexivity|]. apply some_inj in E1. subst args. cbn [length] in Len. clear - Len HN. lia. }
    rewrite Bl. destruct (Rf q) as (_ & Rf2 & _). rewrite (Rf2 Nh eq_refl Hb). reflexivity.
Qed.
Print Assumptions C94_other.
Example C94_other_ex : let h := HAdd (HNew 0 true 2 10) 5 in legal h /\ small h /\ samples h <> [] /\ hbound h < Z.of_nat (length (samples h)) /\ exists s, eval h = Ok s.
Proof. cbv zeta. repeat split; try (simpl; lia); try discriminate. eexists. vm_compute. reflexivity. Qed.

(** ** Tails. printTextTail prints 90%, 95%, 99%, 99.5%, ... (each computed to the
    nearest double), down to the last power of ten for which ten samples lie in the
    tail; printRome goes on while one sample lies in it. *)
Lemma tails_final limit n : limit = 1 \/ limit = 10 -> 1 <= n < 10 ^ 14 -> forall fuel, (14 <= fuel)%nat ->
  exists k, (k <= 13)%nat /\ (forall j, (1 <= j)%nat -> ((j <= k)%nat <-> limit * 10 ^ Z.of_nat j <= n)) /\
    tails fuel limit (of_Z n) (tenth ieee) = Some (tail_quantiles k).
Proof.
  intros Hl Hn fuel Hf. change (tenth ieee) with (tl_frac 0). rewrite (tails_spec limit n Hl Hn 13 0 eq_refl fuel ltac:(lia)).
  set (k := length (filter (reached limit n) (seq 1 14))). exists k.
  assert (G : forall m i, let c := length (filter (reached limit n) (seq i m)) in (c <= m)%nat /\ forall j, (i <= j < i + m)%nat -> ((j < i + c)%nat <-> limit * 10 ^ Z.of_nat j <= n)).
  { clear - Hl. assert (L0 : 0 < limit) by lia. induction m as [|m IH]; intros i; cbv zeta; [split; [simpl; lia|intros j Hj; lia]|]. cbn [seq filter]. destruct (reached limit n i) eqn:R.
    - cbn [length]. destruct (IH (S i)) as [IH1 IH2]. split; [lia|]. intros j Hj. destruct (Nat.eq_dec j i) as [->|Ne].
      + split; [|lia]. intros _. unfold reached, p10 in R. lia.
      + rewrite <- IH2 by lia. lia.
    - rewrite (filter_none limit n L0 m (S i)) by (eapply reached_mono; [exact L0| |exact R]; lia). cbn [length]. split; [lia|]. intros j Hj. split; [lia|].
      intros H. pose proof (reached_mono limit n i j L0 ltac:(lia) R) as R'. unfold reached, p10 in R'. lia. }
  assert (P14 : forall j, (14 <= j)%nat -> n < limit * 10 ^ Z.of_nat j).
  { intros j Hj. assert (10 ^ 14 <= 10 ^ Z.of_nat j) by (apply Z.pow_le_mono_r; lia). clear - H Hn Hl. nia. }
  destruct (G 14%nat 1%nat) as [G1 G2]. fold k in G1, G2. assert (K13 : (k <= 13)%nat).
  { destruct (le_lt_dec k 13) as [|L]; [assumption|]. exfalso. pose proof (proj1 (G2 14%nat ltac:(lia)) ltac:(lia)). pose proof (P14 14%nat ltac:(lia)). lia. }
  split; [exact K13|]. split; [|reflexivity]. intros j Hj. destruct (le_lt_dec j 14) as [L|L].
  - rewrite <- G2 by lia. lia.
  - split; [lia|]. intros H. pose proof (P14 j ltac:(lia)). lia.
Qed.
Lemma dens_quot d : 2 <= d <= 2 * 10 ^ 13 -> let q := ddiv (of_Z (d - 1)) (of_Z d) in in_unit q /\ B2R q = rnd (1 - / IZR d) /\ (Rabs (B2R q - (1 - / IZR d)) <= / 9007199254740992)%R.
Proof.
  intros Hd. cbv zeta. destruct (quot_spec (d - 1) d ltac:(lia) ltac:(lia)) as (F & B & Er).
  destruct (n_spec d ltac:(lia)) as (En & Fn & Rn). destruct (n_spec (d - 1) ltac:(lia)) as (Ek & Fk & Rk).
  assert (D0 : (2 <= IZR d)%R) by (apply (IZR_le 2); lia). assert (Q : (IZR (d - 1) / IZR d = 1 - / IZR d)%R) by (rewrite minus_IZR; field; lra). rewrite Q in Er.
  assert (I1 : (0 < / IZR d <= / 2)%R) by (split; [apply Rinv_0_lt_compat; lra|apply Rinv_le_contravar; lra]).
  split; [split; auto|]. split; [|exact Er]. destruct (ddiv_spec (of_Z (d - 1)) (of_Z d) 0 Fk) as [E _]; [rewrite En; lra|lia|rewrite En, Ek, Q; rewrite Rabs_pos_eq by lra; change (bpow radix2 0) with 1%R; lra|].
  rewrite E, Ek, En, Q. reflexivity.
Qed.
Definition dens (k : nat) : list Z := flat_map (fun j => let p := 10 ^ Z.of_nat j in [p; 2 * p]) (seq 1 k).
Lemma dens_facts k : (k <= 13)%nat -> Forall (fun d => 2 <= d <= 2 * 10 ^ 13) (dens k) /\ StronglySorted Z.le (dens k).
Proof.
  intros K. unfold dens. assert (G : forall m i, (1 <= i)%nat -> (i + m <= 14)%nat -> Forall (fun d => 10 ^ Z.of_nat i <= d <= 2 * 10 ^ 13) (flat_map (fun j => let p := 10 ^ Z.of_nat j in [p; 2 * p]) (seq i m)) /\
    StronglySorted Z.le (flat_map (fun j => let p := 10 ^ Z.of_nat j in [p; 2 * p]) (seq i m))).
  { induction m as [|m IH]; intros i Hi Hm; [split; constructor|]. cbn [seq flat_map app]. destruct (IH (S i) ltac:(lia) ltac:(lia)) as [IH1 IH2].
    assert (P1 : 10 ^ Z.of_nat i <= 10 ^ 13) by (apply Z.pow_le_mono_r; lia). assert (P2 : 10 ^ Z.of_nat (S i) = 10 * 10 ^ Z.of_nat i) by (rewrite Nat2Z.inj_succ, Z.pow_succ_r; lia).
    assert (P0 : 0 < 10 ^ Z.of_nat i) by (apply Z.pow_pos_nonneg; lia). rewrite P2 in IH1. split.
    - constructor; [lia|]. constructor; [lia|]. eapply Forall_impl; [|exact IH1]. intros d Hd. cbv beta in Hd |- *. lia.
    - constructor; [constructor; [exact IH2|]|constructor; [lia|]]; (eapply Forall_impl; [|exact IH1]; intros d Hd; cbv beta in Hd |- *; lia). }
  destruct (G k 1%nat ltac:(lia) ltac:(lia)) as [G1 G2]. split; [|exact G2]. eapply Forall_impl; [|exact G1]. intros d Hd. cbv beta in Hd |- *. change (10 ^ Z.of_nat 1) with 10 in Hd. lia.
Qed.
Lemma tail_dens k : tail_quantiles k = map (fun d => ddiv (of_Z (d - 1)) (of_Z d)) (dens k).
Proof. unfold tail_quantiles, dens. generalize (seq 1 k). induction l as [|j l IH]; [reflexivity|]. cbn [flat_map map app]. now rewrite IH. Qed.
Lemma tail_unit k : (k <= 13)%nat -> Forall in_unit (tail_quantiles k) /\ StronglySorted (fun a b : double => B2R a <= B2R b)%R (tail_quantiles k).
Proof.
  intros K. rewrite tail_dens. destruct (dens_facts k K) as [D1 D2]. split.
  - apply Forall_map. eapply Forall_impl; [|exact D1]. intros d Hd. apply (dens_quot d Hd).
  - induction D2 as [|d l D2 IH H]; [constructor|]. inversion D1; subst. cbn [map]. constructor; [auto|]. apply Forall_map. rewrite Forall_forall in *. intros e He. cbv beta.
    destruct (dens_quot d ltac:(assumption)) as (_ & Ed & _). destruct (dens_quot e ltac:(auto)) as (_ & Ee & _). rewrite Ed, Ee. apply rnd_le.
    assert (IZR d <= IZR e)%R by (apply IZR_le; auto). assert (2 <= IZR d)%R by (apply (IZR_le 2); lia). assert (/ IZR e <= / IZR d)%R by (apply Rinv_le_contravar; lra). lra.
Qed.
Lemma tail_nth k i a : (k <= 13)%nat -> nth_error (tail_quantiles k) i = Some a ->
  let d := (if Nat.even i then 1 else 2) * 10 ^ Z.of_nat (S (Nat.div2 i)) in a = ddiv (of_Z (d - 1)) (of_Z d) /\ 2 <= d <= 2 * 10 ^ 13.
Proof.
  intros K H. cbv zeta. rewrite tail_dens in H. rewrite nth_error_map in H. destruct (nth_error (dens k) i) as [d|] eqn:Ed; [|discriminate]. cbn [option_map] in H. apply some_inj in H. subst a.
  destruct (dens_facts k K) as [D1 _]. rewrite Forall_forall in D1. pose proof (D1 d (nth_error_In _ _ Ed)) as Hd. clear D1.
  assert (G : forall m s i, nth_error (flat_map (fun j => let p := 10 ^ Z.of_nat j in [p; 2 * p]) (seq s m)) i = Some d -> d = (if Nat.even i then 1 else 2) * 10 ^ Z.of_nat (s + Nat.div2 i)).
  { clear. induction m as [|m IH]; intros s i H; [destruct i; discriminate|]. cbn [seq flat_map app] in H. destruct i as [|[|i]]; cbn [nth_error] in H.
    - apply some_inj in H. subst d. cbn [Nat.even Nat.div2]. rewrite Nat.add_0_r. lia.
    - apply some_inj in H. subst d. cbn [Nat.even Nat.div2]. rewrite Nat.add_0_r. lia.
    - apply IH in H. cbn [Nat.even Nat.div2]. rewrite H. f_equal. f_equal. lia. }
  pose proof (G k 1%nat i Ed) as E. change (1 + Nat.div2 i)%nat with (S (Nat.div2 i)) in E. rewrite <- E. auto.
Qed.

Theorem C94_tail : forall h s fuel, legal h -> small h -> samples h <> [] -> Z.of_nat (length (samples h)) <= hbound h -> eval h = Ok s -> (14 <= fuel)%nat ->
  let n := Z.of_nat (length (samples h)) in
  exists k rows s', printTextTail ieee fuel s = Ok (rows, s') /\
    (forall j, (1 <= j)%nat -> ((j <= k)%nat <-> 10 * 10 ^ Z.of_nat j <= n)) /\
    map r_arg rows = tail_quantiles k /\
    (forall i r, nth_error rows i = Some r ->
       let f := (1 - / IZR ((if Nat.even i then 1 else 2) * 10 ^ Z.of_nat (S (Nat.div2 i))))%R in
       (Rabs (B2R (r_arg r) - f) <= / 9007199254740992)%R /\
       shows (weighted (retained s)) (IZR n * f) (1 + IZR n * / 9007199254740992) r /\
       r_label r = Some (dmul (of_Z 100) (r_arg r))) /\
    ascending rows /\ Permutation (weighted (retained s')) (weighted (retained s)).
Proof.
  intros h s fuel Lg Sm Nh Hb Es Hf n. destruct (history_J h s Lg Sm Nh Hb Es) as (F & E & SM & Js & -> & Sc & Pm).
  assert (Hn : 1 <= Z.of_nat (length (samples h)) < 10 ^ 14) by (clear - Nh Sc; destruct (samples h); [congruence|cbn [length] in *; lia]).
  destruct (tails_final 10 _ (or_intror eq_refl) Hn fuel Hf) as (k & K & Hk & E1). destruct (tail_unit k K) as [U So].
  destruct (tail_rows F (samples h) E (hbound h) _ Nh Sc Hb 10 fuel s _ _ Js E1 U) as (rows & s' & R1 & Js' & R2 & R3 & R4).
  exists k, rows, s'. split; [|split; [|split; [|split; [|split]]]]; [|exact Hk|exact R2| | |now apply Pm].
  - unfold printTextTail. destruct Js as (P & _ & _ & C & _). rewrite C. exact R1.
  - intros i r Hr f. assert (Hi : nth_error (tail_quantiles k) i = Some (r_arg r)) by (rewrite <- R2; now apply map_nth_error).
    destruct (tail_nth k i _ K Hi) as [Ea Hd]. destruct (dens_quot _ Hd) as (Ud & _ & Er). rewrite <- Ea in Ud, Er. split; [exact Er|]. split; [|exact (R4 i r Hr)].
    apply answers_shows; auto. rewrite Forall_forall in R3. apply R3. eapply nth_error_In; eauto.
  - eapply answers_ascending; [exact Hn|exact R3|now rewrite R2|now rewrite R2].
Qed.
Print Assumptions C94_tail.
Example C94_tail_ex : exists k, (forall j, (1 <= j)%nat -> ((j <= k)%nat <-> 10 * 10 ^ Z.of_nat j <= 2500)) /\ k = 2%nat.
Proof.
  exists 2%nat. split; [|reflexivity]. intros j Hj. destruct j as [|[|[|j]]]; [lia|change (10 ^ Z.of_nat 1) with 10; lia|change (10 ^ Z.of_nat 2) with 100; lia|]. split; [lia|]. intros H. exfalso.
  assert (10 ^ 3 <= 10 ^ Z.of_nat (S (S (S j)))) by (apply Z.pow_le_mono_r; lia). lia.
Qed.

Theorem C94_rome : forall h s fuel N, legal h -> small h -> samples h <> [] -> Z.of_nat (length (samples h)) <= hbound h -> eval h = Ok s ->
  1 <= N <= 8192 -> (14 <= fuel)%nat -> (Z.to_nat N <= fuel)%nat ->
  let n := Z.of_nat (length (samples h)) in
  exists k ranges tail s', printRome ieee fuel s N = Ok (Some (ranges, tail), s') /\
    Z.of_nat (length ranges) = N - 1 /\
    (forall i r, nth_error ranges i = Some r ->
       (Rabs (B2R (r_arg r) - IZR (Z.of_nat i + 1) / IZR N) <= / 1000000000000)%R /\
       shows (weighted (retained s)) (IZR n * (IZR (Z.of_nat i + 1) / IZR N)) (1 + IZR n * / 1000000000000) r /\
       r_label r = Some (dmul (r_arg r) (of_Z 100))) /\
    (forall j, (1 <= j)%nat -> ((j <= k)%nat <-> 10 ^ Z.of_nat j <= n)) /\
    map r_arg tail = tail_quantiles k /\
    (forall i r, nth_error tail i = Some r ->
       let f := (1 - / IZR ((if Nat.even i then 1 else 2) * 10 ^ Z.of_nat (S (Nat.div2 i))))%R in
       shows (weighted (retained s)) (IZR n * f) (1 + IZR n * / 9007199254740992) r /\
       r_label r = Some (dmul (of_Z 100) (r_arg r))) /\
    ascending ranges /\ ascending tail /\ Permutation (weighted (retained s')) (weighted (retained s)).
Proof.
  intros h s fuel N Lg Sm Nh Hb Es HN Hf Hf2 n. destruct (history_J h s Lg Sm Nh Hb Es) as (F & E & SM & Js & -> & Sc & Pm).
  assert (Hn : 1 <= Z.of_nat (length (samples h)) < 10 ^ 14) by (clear - Nh Sc; destruct (samples h); [congruence|cbn [length] in *; lia]).
  destruct (steps_exact N ltac:(clear - HN; lia) ltac:(clear - HN; lia)) as (args & E0 & Len & Ha & So0).
  assert (More : forall m f q st l, steps m q st = Some l -> (m <= f)%nat -> steps f q st = Some l).
  { clear. induction m as [|m IH]; intros f q st l H L; [discriminate|]. destruct f as [|f]; [lia|]. cbn [steps] in *. destruct (below_one ieee q); [|exact H].
    destruct (steps m (dadd q st) st) as [l'|] eqn:El; [|discriminate]. now rewrite (IH f _ _ _ El ltac:(lia)). }
  pose proof (More _ fuel _ _ _ E0 Hf2) as E0'.
  assert (U0 : Forall in_unit args). { apply Forall_forall. intros a Ia. apply In_nth_error in Ia. destruct Ia as [j Hj]. destruct (Ha j a Hj) as (Fa & _ & B). split; [exact Fa|lra]. }
  destruct (rome_rows F (samples h) E (hbound h) _ Nh Sc Hb fuel s _ _ args Js E0' U0) as (ranges & s1 & Q1 & Js1 & Q2 & Q3 & Q4).
  destruct (tails_final 1 _ (or_introl eq_refl) Hn fuel Hf) as (k & K & Hk & E1). destruct (tail_unit k K) as [U So].
  destruct (tail_rows F (samples h) E (hbound h) _ Nh Sc Hb 1 fuel s1 _ _ Js1 E1 U) as (rows & s' & R1 & Js' & R2 & R3 & R4).
  exists k, ranges, rows, s'. split; [|split; [|split; [|split; [|split; [|split; [|split; [|split]]]]]]]; [| | | |exact R2| | | |now apply Pm].
  - unfold printRome. destruct Js as (P & _ & _ & C & _). destruct Js1 as (P1 & _ & _ & C1 & _). rewrite C. replace (Z.of_nat (length (samples h)) <=? 0) with false by (clear - Hn; lia).
    cbn [ndiv of_int ieee]. rewrite Q1. cbn [bind]. rewrite C1. cbn [of_int ieee] in R1 |- *. rewrite R1. reflexivity.
  - rewrite <- Len, <- Q2, map_length. reflexivity.
  - intros i r Hr. assert (Hi : nth_error args i = Some (r_arg r)) by (rewrite <- Q2; now apply map_nth_error). destruct (Ha i _ Hi) as (Fa & Er & B).
    assert (Ui : in_unit (r_arg r)) by (split; [exact Fa|lra]).
    assert (Lj : Z.of_nat i + 1 <= 8192) by (assert (i < length args)%nat by (apply nth_error_Some; congruence); clear - H Len HN; lia). apply IZR_le in Lj.
    assert (T : (Rabs (B2R (r_arg r) - IZR (Z.of_nat i + 1) / IZR N) <= / 1000000000000)%R) by (eapply Rle_trans; [exact Er|]; unfold u; lra).
    split; [exact T|]. split; [|exact (Q4 i r Hr)]. apply answers_shows; auto. rewrite Forall_forall in Q3. apply Q3. eapply nth_error_In; eauto.
  - intros j Hj. rewrite (Hk j Hj). clear. lia.
  - intros i r Hr f. assert (Hi : nth_error (tail_quantiles k) i = Some (r_arg r)) by (rewrite <- R2; now apply map_nth_error).
    destruct (tail_nth k i _ K Hi) as [Ea Hd]. destruct (dens_quot _ Hd) as (Ud & _ & Er). rewrite <- Ea in Ud, Er. split; [|exact (R4 i r Hr)].
    apply answers_shows; auto. rewrite Forall_forall in R3. apply R3. eapply nth_error_In; eauto.
  - eapply answers_ascending; [exact Hn|exact Q3|now rewrite Q2|rewrite Q2; now apply sorted_weaken].
  - eapply answers_ascending; [exact Hn|exact R3|now rewrite R2|now rewrite R2].
Qed.
Print Assumptions C94_rome.
Example C94_rome_ex : printed (fun s => printRome ieee 20 s 4) (fun o => match o with Some (a, b) => a ++ b | None => [] end) = Ok (map Some [12; 25; 52; 56; 67]).
Proof. vm_compute. reflexivity. Qed.
