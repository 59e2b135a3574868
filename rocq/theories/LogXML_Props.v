(** C98: debug levels given as XML elements. *)
From Coq Require Import List ZArith Lia Bool ZifyBool.
From Verif Require Import Common CommonFacts StringUtil_Spec StringUtil_Model StrInt_Spec StrInt_Model StrInt_Proofs StrInt_Props Log_Spec Log_Model Log_Proofs Log_Props LogXML_Spec LogXML_Model.
Import ListNotations.
Local Open Scope Z_scope.

Definition plain (n : node) : Prop := forall v, attribute n LEVEL = Some v -> hd_error v <> Some 45.

Lemma prop_attribute n name : xmlGetProp n name = attribute n name.
Proof.
  unfold attribute. induction n as [|[a v] n IH]; [reflexivity|]. cbn [xmlGetProp find fst]. rewrite str_eqb_same. destruct (same a name); [reflexivity|exact IH].
Qed.

Lemma digits_natural s v : digits_value s = Some v <-> natural 10 s v.
Proof.
  unfold digits_value, natural. destruct s as [|c s]; [split; [discriminate|intros [H _]; congruence]|]. split.
  - destruct (forallb _ (c :: s)) eqn:F; [|discriminate]. intros E. injection E as <-. split; [discriminate|]. exists (map (fun c => c - 48) (c :: s)). split; [|reflexivity].
    revert F. generalize (c :: s). induction l as [|x l IH]; intros F; cbn [map]; constructor; cbn [forallb] in F; apply andb_true_iff in F; destruct F as [F1 F2].
    + unfold is_digit. lia.
    + now apply IH.
  - intros (_ & ds & F & ->). assert (G : forall l d, Forall2 (is_digit 10) l d -> forallb (fun c => (48 <=? c) && (c <=? 57)) l = true /\ map (fun c => c - 48) l = d).
    { induction 1 as [|x d l ds' Hx _ IH]; [auto|]. cbn [forallb map]. unfold is_digit in Hx. destruct IH as [-> ->]. split; [lia|]. f_equal. lia. }
    destruct (G _ _ F) as [-> ->]. reflexivity.
Qed.

Lemma value_nonneg s v : natural 10 s v -> 0 <= v.
Proof.
  intros (_ & ds & F & ->). unfold value. assert (G : forall ds s a, Forall2 (is_digit 10) s ds -> 0 <= a -> 0 <= fold_left (fun a d => 10 * a + d) ds a).
  { induction ds0 as [|d ds0 IH]; intros s0 a H A; [exact A|]. inversion H as [|x ? l ? Hx Hl]; subst. cbn [fold_left]. apply (IH l); auto. unfold is_digit in Hx. lia. }
  apply (G ds s 0); auto. lia.
Qed.

Lemma cast_level s : s <> [] -> hd_error s <> Some 45 ->
  (let! tmp := stringToInteger uint32 s 10 in let! _ := invariant (tmp <? 255) in Ok (tmp mod 2 ^ 8))
  = match numeral s with Some v => if v <? 255 then Ok v else Abort | None => Abort end.
Proof.
  intros Ns Hs. assert (HS : forall v, stringToInteger uint32 s 10 = Ok v <-> numeral s = Some v /\ v <= tmax uint32).
  { intros v. rewrite (C70_decimal_unsigned_partial uint32 s v eq_refl ltac:(cbn; lia)). unfold integer. destruct s as [|c s]; [congruence|]. cbn [hd_error hd] in *.
    assert (Hc : c <> 45) by congruence. unfold numeral. split.
    - intros [([H|[(r & E & H)|(r & n & E & H)]] & _ & L)|(r & n & E & _)]; try (injection E as E1 E2; congruence).
      + split; [|exact L]. replace (match c with 43 => digits_value s | _ => digits_value (c :: s) end) with (digits_value (c :: s)); [now apply digits_natural|].
        destruct H as (_ & ds & F & _). inversion F as [|x d l ds' Hx _]; subst. unfold is_digit in Hx. assert (c <> 43) by lia. clear - H. destruct c as [|[[]|[]|]|]; try reflexivity; repeat (match goal with |- context [match ?p with xH => _ | _ => _ end] => destruct p end; try reflexivity); congruence.
      + injection E as -> ->. split; [now apply digits_natural|exact L].
    - intros [H L]. left. split; [|split; [congruence|exact L]]. destruct (Z.eq_dec c 43) as [->|H43].
      + right. left. exists s. split; auto. now apply digits_natural.
      + left. apply digits_natural. rewrite <- H. clear - H43. destruct c as [|[[]|[]|]|]; try reflexivity; repeat (match goal with |- context [match ?p with xH => _ | _ => _ end] => destruct p end; try reflexivity); congruence. }
  destruct (C70_decimal_total uint32 s) as [[v E]|E]; rewrite E; cbn [bind].
  - apply HS in E. destruct E as [E L]. rewrite E. destruct (v <? 255) eqn:B; cbn [invariant bind]; [|reflexivity]. f_equal. apply Z.mod_small.
    assert (0 <= v). { unfold numeral in E. destruct s as [|c s]; [congruence|]. destruct (Z.eq_dec c 43) as [->|H43]; [apply digits_natural in E; now apply value_nonneg in E|].
      assert (E' : digits_value (c :: s) = Some v). { rewrite <- E. clear - H43. destruct c as [|[[]|[]|]|]; try reflexivity; repeat (match goal with |- context [match ?p with xH => _ | _ => _ end] => destruct p end; try reflexivity); congruence. }
      apply digits_natural in E'. now apply value_nonneg in E'. }
    lia.
  - destruct (numeral s) as [v|] eqn:En; [|reflexivity]. destruct (v <? 255) eqn:B; [|reflexivity]. assert (X : stringToInteger uint32 s 10 = Ok v) by (apply HS; split; auto; cbn; lia). congruence.
Qed.

Lemma parse_level s n : plain n -> parseXML s n = match level_of n LEVEL with Some l => setDebugLevel s (category_of n CATEGORY) l | None => Abort end.
Proof.
  intros Hp. unfold parseXML, strGetXMLAttr, level_of, category_of. rewrite !prop_attribute. destruct (attribute n LEVEL) as [[|c v]|] eqn:E; cbn [negb bind]; try reflexivity.
  rewrite cast_level; [|discriminate|apply (Hp (c :: v)); exact E]. destruct (numeral (c :: v)) as [w|]; [|reflexivity]. destruct (w <? 255); reflexivity.
Qed.

(** Every program of calls and XML elements does what it would do with each element
    replaced by a setting of its category to its level, and is stopped at an element
    whose level is not a number below 255. *)
Definition x_spec_step (t : spec) (o : xop) : res (spec * (answer * list output)) :=
  match o with
  | XCall o => spec_step t o
  | XNode n => match level_of n LEVEL with Some l => spec_step t (OSet (category_of n CATEGORY) l) | None => Abort end
  end.
Theorem C98_partial : forall ops, Forall (fun o => match o with XNode n => plain n | _ => True end) ops ->
  conforms (run_ops x_step log_new ops) (run_ops x_spec_step spec_new ops).
Proof.
  assert (G : forall ops t s, refines t s -> Forall (fun o => match o with XNode n => plain n | _ => True end) ops -> conforms (run_ops x_step s ops) (run_ops x_spec_step t ops)).
  { induction ops as [|o ops IH]; intros t s R F; cbn [run_ops]; [constructor|]. inversion F as [|? ? F1 F2]; subst.
    assert (H : exists o', (x_step s o = log_step s o' /\ x_spec_step t o = spec_step t o') \/ (x_step s o = Abort /\ x_spec_step t o = Abort)).
    { destruct o as [o|n]; [exists o; left; auto|]. cbn [x_step x_spec_step]. rewrite (parse_level s n F1). destruct (level_of n LEVEL) as [l|]; [exists (OSet (category_of n CATEGORY) l); left; auto|exists (OLevel 0); right; auto]. }
    destruct H as (o' & [[-> ->]|[-> ->]]); [|constructor]. pose proof (step_refines t s o' R) as H. destruct (spec_step t o') as [[t' a]| | |]; [|rewrite H; constructor|constructor|contradiction].
    destruct H as (s' & -> & R' & _). constructor. now apply IH. }
  intros ops F. apply G; auto. apply new_refines.
Qed.
Print Assumptions C98_partial.
Example C98_nonvacuous : run_ops x_step log_new [XNode [(CATEGORY, [97]); (LEVEL, [49; 50])]; XCall (OWould [97] 12); XCall (OWould [97] 13); XNode [(CATEGORY, [97; 42])]; XCall (OWould [97] 2); XNode [(LEVEL, [120])]]
  = [Ok (Done, []); Ok (Yes true, []); Ok (Yes false, []); Ok (Done, []); Ok (Yes false, []); Abort].
Proof. vm_compute. reflexivity. Qed.

(** 255 is a level like the others to setDebugLevel and parseDebugString; here it is refused. *)
Theorem C98_255_refuted : forall s c, parseXML s [(CATEGORY, c); (LEVEL, [50; 53; 53])] = Abort
  /\ parseXML s [(CATEGORY, c); (LEVEL, [50; 53; 52])] = setDebugLevel s c 254.
Proof. intros s c. split; reflexivity. Qed.
Print Assumptions C98_255_refuted.

(** A negative level is accepted when its value modulo 2^32 is below 255. *)
Theorem C98_negative_refuted : forall s c, parseXML s [(CATEGORY, c); (LEVEL, [45; 52; 50; 57; 52; 57; 54; 55; 50; 57; 53])] = setDebugLevel s c 1.
Proof. intros s c. unfold parseXML. replace (strGetXMLAttr [(CATEGORY, c); (LEVEL, [45; 52; 50; 57; 52; 57; 54; 55; 50; 57; 53])] LEVEL) with [45; 52; 50; 57; 52; 57; 54; 55; 50; 57; 53] by reflexivity. reflexivity. Qed.
Print Assumptions C98_negative_refuted.

(** The documentation requires the attribute "category"; without it the level of the
    category with the empty name is set and nothing is reported. *)
Theorem C98_no_category_refuted : forall s n l, attribute n CATEGORY = None -> plain n -> level_of n LEVEL = Some l -> parseXML s n = setDebugLevel s [] l.
Proof. intros s n l Hc Hp Hl. rewrite parse_level, Hl by assumption. unfold category_of. now rewrite Hc. Qed.
Print Assumptions C98_no_category_refuted.
Example C98_no_category_nonvacuous : run_ops x_step log_new [XNode [([99], [97])]; XCall (OWould [97] 1); XCall (OWould [] 1)] = [Ok (Done, []); Ok (Yes false, []); Ok (Yes true, [])].
Proof. vm_compute. reflexivity. Qed.
