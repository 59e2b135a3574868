(** StatsQuantile: what one addition does to the number of samples accounted for,
    the set of retained values and the rank error. *)
From Coq Require Import List Arith ZArith NArith Lia Bool Permutation Sorted ZifyBool ZifyNat ZifyN.
From Verif Require Import Common CommonFacts ListFacts Quantile_Model Quantile_Spec Quantile_Facts Quantile_Merge Quantile_Bin Quantile_Collapse Quantile_Proofs Quantile_Query.
Import ListNotations.
Local Open Scope nat_scope.

Fixpoint hidF (b : nat) (F : fulls) : nat := match F with [] => 0 | x :: r => hid b (fst x) + hidF (b - 1) r end.
Lemma hidF_app b F1 F2 : hidF b (F1 ++ F2) = hidF b F1 + hidF (b - length F1) F2.
Proof. revert b; induction F1 as [|x F1 IH]; intros b; simpl; [now rewrite Nat.sub_0_r|]. rewrite IH. replace (b - 1 - length F1) with (b - S (length F1)) by lia. lia. Qed.
Lemma hidF_level G l : (forall b, In b G -> fst b = l) -> hidF (length G) G = hsum (length G) l.
Proof. induction G as [|x G IH]; intros H; [reflexivity|]. cbn [hidF length hsum]. rewrite Nat.sub_succ, Nat.sub_0_r, (H x (or_introl eq_refl)), IH; auto. intros b Hb. apply H. now right. Qed.

Definition est (p : Z -> bool) (nb : nat) (F : fulls) (P : list Z) : nat := cnt p (massL (blist nb F P)).
Definition delta (even_low : bool) : Z := if even_low then 0%Z else 1%Z.
Definition full_len (bs : nat) (F : fulls) : Prop := forall b, In b F -> length (snd b) = bs.
Definition kept (F : fulls) (P : list Z) : list Z := flat_map snd F ++ P.

Lemma massL_single w l : massL [(w, l)] = stretch w l.
Proof. unfold massL. cbn. now rewrite app_nil_r. Qed.
Lemma est_eq p nb F P : est p nb F P = cnt p (massL (weigh nb F)) + cnt p P.
Proof. unfold est. now rewrite blist_mass, cnt_app. Qed.
Lemma weigh_snd b F : flat_map snd (weigh b F) = flat_map snd F.
Proof. revert b; induction F as [|x F IH]; intros; simpl; auto. now rewrite IH. Qed.
Lemma blist_kept nb F P : flat_map snd (blist nb F P) = kept F P.
Proof. unfold blist, kept. rewrite flat_map_app, weigh_snd. simpl. now rewrite app_nil_r. Qed.
Lemma massL_in L x : In x (massL L) -> In x (flat_map snd L).
Proof. unfold massL. rewrite !in_flat_map. intros (b & Hb & H). exists b. split; auto. now apply stretch_in in H. Qed.

Section Step.
Variables (nb bs : nat).
Hypothesis Hnb : 2 <= nb.
Hypothesis Hbs : 1 <= bs.

(** facts about the collapsed run *)
Lemma run_facts e F P F1 G l : length P = bs -> S (length F) = nb -> F ++ [(plevel nb F, P)] = F1 ++ G ->
  (forall b, In b G -> fst b = l) -> 2 <= length G -> full_len bs F ->
  let L := weigh (nb - length F1) G in
  let W := wsumL L in
  let o := Z.to_nat (fst (collapseNextQuantileOffset e (Z.of_nat W))) in
  nb - length F1 = length G /\ W = wt (nb - length F1) (S l) /\ 2 <= W /\ 1 <= o <= W /\ length (massL L) = bs * W
  /\ massL (weigh nb F) ++ P = massL (weigh nb F1) ++ massL L
  /\ hidF nb F1 + hid (nb - length F1) (S l) = hidF nb F + (W - 1)
  /\ full_len bs F1 /\ (forall x, In x (flat_map snd F1) \/ In x (flat_map snd G) -> In x (kept F P)).
Proof.
  intros HP HF EG AG LG FL L W o.
  assert (HL : length F1 + length G = nb). { pose proof (f_equal (@length _) EG) as E. rewrite !app_length in E. simpl in E. lia. }
  assert (H1 : nb - length F1 = length G) by lia.
  assert (HW : W = wt (nb - length F1) (S l)). { unfold W, L. rewrite H1, (weigh_wsum G l AG). apply wsum_wt. }
  assert (HW2 : 2 <= W). { rewrite HW, H1. destruct (length G) as [|[|k]]; try lia. rewrite wt_S_S. pose proof (wt_pos k (S l)). pose proof (wt_pos (S k) l). lia. }
  assert (FG : full_len bs (F1 ++ G)). { rewrite <- EG. intros b Hb. apply in_app_or in Hb. destruct Hb as [Hb|[<-|[]]]; auto. }
  assert (Ho := offset_range e (Z.of_nat W) ltac:(lia)).
  split; auto. split; auto. split; auto. split; [unfold o; lia|]. split; [|split; [|split; [|split]]].
  - apply massL_length. intros b Hb. apply In_nth_error in Hb. destruct Hb as (j & E). destruct b as [w vs]. destruct (weigh_nth _ _ _ _ _ E) as (x & Ex & -> & ->). cbn.
    apply FG. apply in_or_app. right. now apply nth_error_In in Ex.
  - rewrite <- massL_app. unfold L. rewrite <- weigh_app, <- EG, weigh_app, massL_app. f_equal. cbn [weigh fst snd]. replace (nb - length F) with 1 by lia. rewrite wt_1, massL_single. now rewrite stretch_1.
  - rewrite hid_S, <- HW, H1, <- (hidF_level G l AG), <- H1. rewrite Nat.add_assoc, <- hidF_app, <- EG, hidF_app. cbn [hidF fst]. replace (nb - length F) with 1 by lia. rewrite hid_1. lia.
  - intros b Hb. apply FG. apply in_or_app. auto.
  - intros x Hx. unfold kept. rewrite <- in_app_iff, <- flat_map_app, <- EG, flat_map_app in Hx. simpl in Hx. now rewrite app_nil_r in Hx.
Qed.

Lemma pick_in' T W k o x : length T = k * W -> 1 <= o <= W -> 0 < k -> In x (pick T W (o - 1) k) -> In x T.
Proof. intros L Ho Hk H. apply (pick_in T W (o - 1) k); auto. destruct k; [lia|]. simpl. rewrite Nat.sub_0_r, L. simpl. nia. Qed.

Theorem astep_len e F P v e' F' P' : astep nb bs e F P v e' F' P' -> full_len bs F -> full_len bs F'.
Proof.
  intros St FL. destruct St as [| |F1 G l HP HF EG AG LG GF W o]; auto.
  - intros b Hb. apply in_app_or in Hb. destruct Hb as [Hb|[<-|[]]]; auto. cbn. now rewrite isort_length.
  - destruct (run_facts e F P F1 G l HP HF EG AG LG FL) as (_ & _ & _ & _ & _ & _ & _ & A & _).
    intros b Hb. apply in_app_or in Hb. destruct Hb as [Hb|[<-|[]]]; auto. cbn. apply pick_length.
Qed.

Theorem astep_count e F P v e' F' P' : astep nb bs e F P v e' F' P' -> full_len bs F -> length F < nb ->
  fcount nb bs F' P' = S (fcount nb bs F P).
Proof.
  intros St FL LF. destruct St as [HP|HP HF|F1 G l HP HF EG AG LG GF W o]; unfold fcount.
  - rewrite app_length. simpl. lia.
  - rewrite weigh_app, wsumL_app. cbn [weigh wsumL fold_right fst length]. rewrite wt_0_pos by lia. unfold wsumL. lia.
  - destruct (run_facts e F P F1 G l HP HF EG AG LG FL) as (_ & HW & _ & _ & LM & EM & _ & FL1 & _).
    rewrite weigh_app, wsumL_app. cbn [weigh wsumL fold_right fst length]. rewrite <- HW. fold W in LM.
    pose proof (f_equal (@length Z) EM) as EL. rewrite !app_length in EL. fold W in LM. rewrite LM in EL.
    rewrite !(massL_length _ bs) in EL.
    + unfold W. unfold wsumL in *. lia.
    + intros b Hb. apply In_nth_error in Hb. destruct Hb as (j & E). destruct b as [w vs]. destruct (weigh_nth _ _ _ _ _ E) as (x & Ex & -> & ->). first [exact (FL1 _ (nth_error_In _ _ Ex))|exact (FL _ (nth_error_In _ _ Ex))].
    + intros b Hb. apply In_nth_error in Hb. destruct Hb as (j & E). destruct b as [w vs]. destruct (weigh_nth _ _ _ _ _ E) as (x & Ex & -> & ->). first [exact (FL1 _ (nth_error_In _ _ Ex))|exact (FL _ (nth_error_In _ _ Ex))].
Qed.

Theorem astep_kept e F P v e' F' P' x : astep nb bs e F P v e' F' P' -> full_len bs F -> In x (kept F' P') -> In x (kept F P) \/ x = v.
Proof.
  intros St FL. destruct St as [HP|HP HF|F1 G l HP HF EG AG LG GF W o]; unfold kept.
  - rewrite !in_app_iff. simpl. intuition.
  - rewrite flat_map_app, !in_app_iff. simpl. rewrite app_nil_r. intros [[H|H]|[H|[]]]; auto. left. right. eapply Permutation_in; [apply isort_perm|exact H].
  - destruct (run_facts e F P F1 G l HP HF EG AG LG FL) as (_ & HW & _ & Ho & LM & EM & _ & _ & K).
    rewrite flat_map_app, !in_app_iff. simpl. rewrite app_nil_r. intros [[H|H]|[H|[]]]; auto; left; apply in_app_iff; apply K; auto.
    right. apply pick_in' in H; [|rewrite isort_length; exact LM|exact Ho|lia].
    apply (Permutation_in x (isort_perm _)) in H. apply massL_in in H. now rewrite weigh_snd in H.
Qed.

Theorem astep_hidden e F P v e' F' P' : astep nb bs e F P v e' F' P' -> full_len bs F -> length F < nb ->
  (hidF nb F' = hidF nb F /\ (length P < bs \/ S (length F) < nb) /\ e' = e)
  \/ (length P = bs /\ S (length F) = nb /\ exists F1 l, F' = F1 ++ [l] /\ 2 <= wt (nb - length F1) (fst l) /\ hidF nb F' = hidF nb F + (wt (nb - length F1) (fst l) - 1)).
Proof.
  intros St FL LF. destruct St as [HP|HP HF|F1 G l HP HF EG AG LG GF W o].
  - auto.
  - left. split; [|auto]. rewrite hidF_app. cbn [hidF fst]. rewrite hid_0. lia.
  - right. split; auto. split; auto. destruct (run_facts e F P F1 G l HP HF EG AG LG FL) as (_ & HW & H2 & Ho & LM & EM & EH & _).
    eexists _, _. split; [reflexivity|]. cbn [fst]. rewrite <- HW. split; [lia|]. rewrite hidF_app. cbn [hidF fst]. rewrite Nat.add_0_r. exact EH.
Qed.

Theorem astep_error e F P v e' F' P' X E p : astep nb bs e F P v e' F' P' -> full_len bs F -> length F < nb -> down_closed p ->
  (Z.abs (2 * Z.of_nat (est p nb F P) - 2 * Z.of_nat (cnt p X) - delta e) <= Z.of_nat (E + hidF nb F))%Z ->
  (Z.abs (2 * Z.of_nat (est p nb F' P') - 2 * Z.of_nat (cnt p (X ++ [v])) - delta e') <= Z.of_nat (E + hidF nb F'))%Z.
Proof.
  intros St FL LF D. rewrite !est_eq, cnt_app. destruct St as [HP|HP HF|F1 G l HP HF EG AG LG GF W o]; intros H.
  - rewrite cnt_app. lia.
  - rewrite weigh_app, massL_app, cnt_app, hidF_app. cbn [weigh hidF fst snd]. rewrite hid_0, wt_0_pos, massL_single, stretch_1 by lia.
    rewrite (cnt_perm p _ _ (isort_perm P)). lia.
  - destruct (run_facts e F P F1 G l HP HF EG AG LG FL) as (_ & HW & H2 & Ho & LM & EM & EH & _).
    rewrite weigh_app, massL_app, cnt_app, hidF_app. cbn [weigh hidF fst snd]. rewrite massL_single, cnt_stretch, <- HW, Nat.add_0_r, EH. fold W in Ho, LM, H2.
    fold W o in Ho. fold W.
    pose proof (collapse_error p (isort (massL (weigh (nb - length F1) G))) W bs o D (isort_sorted _) ltac:(rewrite isort_length; exact LM) Ho) as [C1 C2].
    cbv zeta in C1, C2. set (c := cnt p (pick _ _ _ _)) in *. rewrite (cnt_perm p _ _ (isort_perm _)) in C1, C2.
    pose proof (f_equal (cnt p) EM) as EC. rewrite !cnt_app in EC. set (cl := cnt p (massL (weigh (nb - length F1) G))) in *.
    assert (Q : (2 - 2 * Z.of_nat o <= 2 * (Z.of_nat W * Z.of_nat c) - 2 * Z.of_nat cl <= 2 * Z.of_nat W - 2 * Z.of_nat o)%Z) by nia.
    assert (Dd : (- (Z.of_nat W - 1) + (delta (snd (collapseNextQuantileOffset e (Z.of_nat W))) - delta e) = 2 - 2 * Z.of_nat o
      /\ (Z.of_nat W - 1) + (delta (snd (collapseNextQuantileOffset e (Z.of_nat W))) - delta e) = 2 * Z.of_nat W - 2 * Z.of_nat o)%Z).
    { unfold o, delta, collapseNextQuantileOffset. destruct (Z.of_nat W mod 2 =? 0)%Z eqn:Par; destruct e; cbn [fst snd]; Z.to_euclidean_division_equations; lia. }
    rewrite Nat2Z.inj_add, Nat2Z.inj_add in *. lia.
Qed.
End Step.
