(** C99: what StatsMaker makes. *)
From Coq Require Import List Arith ZArith Lia Bool String ZifyBool ZifyNat.
From Verif Require Import Common CommonFacts Maker_Model Maker_Spec Maker_Proofs MakerDef_Model MakerDef_Spec.
Import ListNotations.
Open Scope Z_scope.

Section P.
Context {V : Type}.
Notation obj := (object V).
Definition view (d : defs (statDef V)) : defs (res obj) := map (fun p => (fst p, make_of V (snd p))) d.
Lemma lookup_view d n : lookup (view d) n = option_map (make_of V) (lookup d n).
Proof. induction d as [|[m k] d IH]; [reflexivity|]. cbn. destruct (name_eqb m n); [reflexivity|exact IH]. Qed.
Definition oks (set : list Z -> option obj) (p : list Z) : option (res obj) := option_map Ok (set p).
Definition inv (d : defs (statDef V)) (set : list Z -> option obj) : Prop := agree (Ok NStats) (view d) (oks set).

Lemma make_inv d set n : inv d set -> exists k d', getDefaultStatDef (statDef V) (new_def V) d n = Ok (k, d') /\ inv d' set /\ exists o, make_of V k = Ok o /\ chosen NStats set n o.
Proof.
  intros I. destruct (default_spec (new_def V) d n) as (k & d' & E & C & Hd). exists k, d'. split; [exact E|]. split.
  - destruct Hd as [->|(LD & ->)]; [exact I|]. destruct I as (A1 & A2). split.
    + intros p Np. rewrite lookup_view, lookup_set. destruct (list_eq_dec Z.eq_dec DEFAULT p); [congruence|]. rewrite <- lookup_view. now apply A1.
    + right. destruct A2 as [A2|(_ & A3)]; [rewrite lookup_view, LD in A2|rewrite lookup_view, LD in A3; discriminate]. split; [now symmetry|]. rewrite lookup_view, lookup_set. destruct (list_eq_dec Z.eq_dec DEFAULT DEFAULT); [reflexivity|congruence].
  - assert (C2 : chosen (Ok NStats) (lookup (view d)) n (make_of V k)).
    { destruct C as [(p & H1 & H2 & H3)|(H1 & ->)].
      - left. exists p. rewrite lookup_view, H2. split; [exact H1|]. split; [reflexivity|]. intros p' Hp' N. apply H3; [exact Hp'|]. intros Z. rewrite lookup_view, Z in N. now apply N.
      - right. split; [intros p Hp; now rewrite lookup_view, (H1 p Hp)|]. rewrite lookup_view. destruct (lookup d DEFAULT); reflexivity. }
    apply (chosen_agree _ _ (oks set) n _ I) in C2. unfold oks in C2. destruct C2 as [(p & H1 & H2 & H3)|(H1 & H2)].
    + destruct (set p) as [o|] eqn:S; [|discriminate]. exists o. cbn in H2. split; [congruence|]. left. exists p. split; [exact H1|]. split; [exact S|]. intros p' Hp' N. apply H3; [exact Hp'|]. destruct (set p'); [discriminate|congruence].
    + exists (match set DEFAULT with Some o => o | None => NStats end). split; [rewrite H2; destruct (set DEFAULT); reflexivity|]. right. split; [|reflexivity]. intros p Hp. specialize (H1 p Hp). destruct (set p); [discriminate|reflexivity].
Qed.
Lemma make_step d set n : inv d set -> exists d' o, make V d n = Ok (d', o) /\ inv d' set /\ chosen NStats set n o.
Proof. intros I. destruct (make_inv d set n I) as (k & d' & E & I' & o & Eo & C). exists d', o. unfold make. rewrite E. cbn [bind]. rewrite Eo. auto. Qed.

Definition put_set (set : list Z -> option obj) (n : list Z) (o : obj) (p : list Z) : option obj := if list_eq_dec Z.eq_dec n p then Some o else set p.
Lemma set_inv d set n f o : inv d set -> (forall k, make_of V (f k) = Ok o) -> inv (modify V d n f) (put_set set n o).
Proof.
  intros (A1 & A2) F. unfold inv, modify. split.
  - intros p Np. rewrite lookup_view, lookup_set. unfold oks, put_set. destruct (list_eq_dec Z.eq_dec n p); [cbn; now rewrite F|]. rewrite <- lookup_view. now apply A1.
  - rewrite lookup_view, lookup_set. unfold oks, put_set. destruct (list_eq_dec Z.eq_dec n DEFAULT); [left; cbn; now rewrite F|]. rewrite <- lookup_view. exact A2.
Qed.
Lemma getHistMode_spec s : match getHistMode s with Ok m => names s m | Abort => forall m, ~ names s m | _ => False end.
Proof.
  unfold getHistMode, names. destruct (String.eqb_spec s "Uniform"); [tauto|]. destruct (String.eqb_spec s "Log"); [tauto|]. destruct (String.eqb_spec s "UniformAccum"); [tauto|]. destruct (String.eqb_spec s "LogAccum"); [tauto|]. intros m H. tauto.
Qed.
Lemma small b : 0 <= b < 2 ^ 31 -> to_unsigned b = b /\ to_unsigned_long b = b.
Proof. intros H. unfold to_unsigned, to_unsigned_long. split; apply Z.mod_small; lia. Qed.

Lemma hist_step n a b low high sc gr d set : inv d set -> 0 <= b < 2 ^ 31 -> match mode_of a with
  | Ok m => exists o, asks (SetHistogram n a b low high sc gr) n o /\ inv (modify V d n (set_histogram V m b low high sc gr)) (put_set set n o)
  | Abort => bad_mode (SetHistogram (V := V) n a b low high sc gr)
  | _ => False end.
Proof.
  intros I B. assert (M : match mode_of a with Ok m => means a m | Abort => bad_mode (SetHistogram (V := V) n a b low high sc gr) | _ => False end).
  { destruct a as [m|s]; [reflexivity|]. cbn. pose proof (getHistMode_spec s) as H. destruct (getHistMode s); auto. }
  destruct (mode_of a) as [m| | |]; auto. destruct (small b B) as (S1 & _).
  destruct m; eexists; (split; [now constructor|]); apply set_inv; auto; intros k; unfold make_of, makeHistogram; cbn; rewrite S1; reflexivity.
Qed.
Lemma group_step n a b rg d set : inv d set -> match mode_of a with
  | Ok m => exists o, asks (SetGroup n a b rg) n o /\ inv (modify V d n (set_group V m b rg)) (put_set set n o)
  | Abort => bad_mode (SetGroup (V := V) n a b rg)
  | _ => False end.
Proof.
  intros I. assert (M : match mode_of a with Ok m => means a m | Abort => bad_mode (SetGroup (V := V) n a b rg) | _ => False end).
  { destruct a as [m|s]; [reflexivity|]. cbn. pose proof (getHistMode_spec s) as H. destruct (getHistMode s); auto. }
  destruct (mode_of a) as [m| | |]; auto. exists (NGroup m b rg). split; [now constructor|]. apply set_inv; auto.
Qed.
Lemma run_answers l : forall d set, inv d set -> Forall counts l -> answers set l (run_ops (step V) d l).
Proof.
  assert (PS : forall set n o, put_set set n o n = Some o) by (intros; unfold put_set; destruct (list_eq_dec Z.eq_dec n n); congruence).
  assert (PO : forall set n o p, p <> n -> put_set set n o p = set p) by (intros; unfold put_set; destruct (list_eq_dec Z.eq_dec n p); congruence).
  induction l as [|c l IH]; intros d set I F; [constructor|]. inversion F as [|? ? Fc Fl]; subst. destruct c as [n|n a b low high sc gr|n a b rg|n mr|n|n]; cbn [run_ops step].
  - apply (R_set set (put_set set n NStats) _ n NStats); auto; [constructor|]. apply IH; [|exact Fl]. apply set_inv; auto.
  - pose proof (hist_step n a b low high sc gr d set I Fc) as H. destruct (mode_of a) as [m| | |]; cbn [bind]; [|now constructor|contradiction|contradiction].
    destruct H as (o & A & I'). apply (R_set set (put_set set n o) _ n o); auto.
  - pose proof (group_step n a b rg d set I) as H. destruct (mode_of a) as [m| | |]; cbn [bind]; [|now constructor|contradiction|contradiction].
    destruct H as (o & A & I'). apply (R_set set (put_set set n o) _ n o); auto.
  - apply (R_set set (put_set set n (NSequence mr)) _ n (NSequence mr)); auto; [constructor|]. apply IH; [|exact Fl]. apply set_inv; auto. intros k. unfold make_of. cbn. now rewrite (proj2 (small mr Fc)).
  - destruct (make_step d set n I) as (d' & o & E & I' & C). rewrite E. cbn [bind]. constructor; auto.
  - unfold makeRW. destruct (make_inv d set n I) as (k & d0 & E0 & I0 & _). rewrite E0. cbn [bind].
    destruct (make_step d0 set (n ++ bytes "-read") I0) as (d1 & r & E1 & I1 & C1). rewrite E1. cbn [bind].
    destruct (make_step d1 set (n ++ bytes "-write") I1) as (d2 & w & E2 & I2 & C2). rewrite E2. cbn [bind].
    destruct (make_step d2 set (n ++ bytes "-all") I2) as (d3 & a & E3 & I3 & C3). rewrite E3. cbn [bind]. constructor; auto.
Qed.
End P.

(** C99. In every program of setModeSimple, setModeHistogram, setModeHistogramGroup,
    setModeSequence (with modes given by value or by name), make and makeRW calls whose
    counts are not negative, no field that was never assigned is read, a mode that does
    not exist aborts, every make(n) creates the object the latest setMode* call for the
    chosen name asked for, with that call's arguments whatever was set for the name
    before, and makeRW(n) the three for n-read, n-write and n-all. *)
Theorem C99_partial : forall V (prog : list (call V)), Forall counts prog -> answers (fun _ => None) prog (run V prog).
Proof. intros V prog F. apply run_answers; [split; [reflexivity|left; reflexivity]|exact F]. Qed.
Print Assumptions C99_partial.

(** What is missing: scalable and growable are accepted without a complaint for the kinds
    of histogram that do not have them, and the object is the one of a call without. *)
Theorem C99_flags_ignored_refuted : forall V n (bins : Z) (low high : V) sc gr,
  run V [SetHistogram n (ByEnum LogAccum) bins low high sc gr; Make n] = run V [SetHistogram n (ByEnum LogAccum) bins low high false false; Make n] /\
  run V [SetHistogram n (ByEnum Log) bins low high sc gr; Make n] = run V [SetHistogram n (ByEnum Log) bins low high sc false; Make n].
Proof.
  intros. unfold run, run_ops, step, mode_of, bind, make, getDefaultStatDef, modify.
  assert (E : forall k : statDef V, lookup (set_mode (statDef V) [] n k) n = Some k) by (intros k; rewrite lookup_set; destruct (list_eq_dec Z.eq_dec n n); congruence).
  rewrite !E. split; reflexivity.
Qed.
Print Assumptions C99_flags_ignored_refuted.

(** A negative number of bins becomes a number of bins of more than 2^31. *)
Theorem C99_negative_refuted : forall V n (bins : Z) (low high : V) sc gr, - 2 ^ 31 <= bins < 0 ->
  run V [SetHistogram n (ByEnum Uniform) bins low high sc gr; Make n] = [Ok ANone; Ok (AStats (NUniform (2 ^ 32 + bins) low high sc gr))].
Proof.
  intros V n bins low high sc gr B. assert (U : to_unsigned bins = 2 ^ 32 + bins).
  { unfold to_unsigned. rewrite <- (Z.mod_add bins 1) by discriminate. rewrite Z.mod_small; lia. }
  rewrite <- U. unfold run, run_ops, step, mode_of, bind, make, getDefaultStatDef, modify.
  rewrite lookup_set. destruct (list_eq_dec Z.eq_dec n n); [|congruence]. reflexivity.
Qed.
Print Assumptions C99_negative_refuted.

(** A name is a sequence, then a group, then a sequence again, while "a" is a histogram;
    makeRW of "a" where "a-read" is set. *)
Example C99_ex :
  let a := [97] in let b := [97; 45; 98] in
  let prog := [SetHistogram a (ByName "Uniform") 10 0 1 true false; SetSequence b 7; Make b; SetGroup b (ByName "Log") 3 [1; 2; 3]; Make b;
    SetSimple b; SetSequence a 9; SetHistogram a (ByEnum UniformAccum) 11 2 5 false true; Make a; Make b; SetSequence [97; 45; 114; 101; 97; 100] 4; MakeRW a;
    Make [122]; SetHistogram a (ByName "log") 1 1 1 false false; Make a] in
  Forall counts prog /\
  run Z prog = [Ok ANone; Ok ANone; Ok (AStats (NSequence 7)); Ok ANone; Ok (AStats (NGroup Log 3 [1; 2; 3])); Ok ANone; Ok ANone; Ok ANone;
    Ok (AStats (NUniformAccum 11 2 5 false true)); Ok (AStats NStats); Ok ANone;
    Ok (ARW (NSequence 4) (NUniformAccum 11 2 5 false true) (NUniformAccum 11 2 5 false true)); Ok (AStats NStats); Abort].
Proof. cbv zeta. split; [repeat constructor; discriminate|vm_compute; reflexivity]. Qed.
