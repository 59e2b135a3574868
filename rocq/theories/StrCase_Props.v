(** C105 and C106: character classes, case and stringToDouble. *)
From Coq Require Import List ZArith Lia Bool ZifyBool ZifyNat.
From Verif Require Import Common CommonFacts StrCase_Model.
Import ListNotations.
Open Scope Z_scope.

(** Bytes; ASCII; blank and white space characters; letters *)
Definition byte (b : Z) : Prop := 0 <= b <= 255.
Definition ascii (b : Z) : Prop := 0 <= b <= 127.
Definition blank (b : Z) : Prop := b = 32 \/ b = 9.
Definition white (b : Z) : Prop := b = 32 \/ 9 <= b <= 13.
(** [lo] is [up] in lower case: the 26 letters differ by 32, all others are the same. *)
Definition lower_of (up lo : Z) : Prop := 65 <= up <= 90 /\ lo = up + 32 \/ ~ 65 <= up <= 90 /\ lo = up.
Definition upper_of (lo up : Z) : Prop := 97 <= lo <= 122 /\ up = lo - 32 \/ ~ 97 <= lo <= 122 /\ up = lo.

Lemma ctype_ascii {A} (f : Z -> A) b : ascii b -> ctype f (char_int b) = Ok (f b).
Proof. unfold ascii, ctype, char_int. intros H. destruct (Z.ltb_spec b 128); [|lia]. replace ((-1 <=? b) && (b <=? 255)) with true by lia. reflexivity. Qed.
Lemma ctype_high {A} (f : Z -> A) b : 128 <= b <= 254 -> ctype f (char_int b) = UB.
Proof. unfold ctype, char_int. intros H. destruct (Z.ltb_spec b 128); [lia|]. replace ((-1 <=? b - 256) && (b - 256 <=? 255)) with false by lia. reflexivity. Qed.
Lemma all_chars_ok f P s : (forall b, ascii b -> (f b = true <-> P b)) -> Forall ascii s -> exists y, all_chars f s = Ok y /\ (y = true <-> Forall P s).
Proof.
  intros H. induction s as [|b s IH]; intros F; [exists true; split; [reflexivity|split; [constructor|reflexivity]]|]. inversion F as [|? ? Hb Fs]; subst. cbn [all_chars]. rewrite (ctype_ascii f b Hb). cbn [bind]. destruct (IH Fs) as (y & E & Hy). destruct (f b) eqn:Q; cbn [negb].
  - exists y. split; [exact E|]. rewrite Hy. split; [constructor; [now apply H|assumption]|]. intros G. now inversion G.
  - exists false. split; [reflexivity|]. split; [discriminate|]. intros G. inversion G as [|? ? Pb _]; subst. apply H in Pb; [congruence|exact Hb].
Qed.
Lemma map_chars_ok f (R : Z -> Z -> Prop) s : (forall b, ascii b -> ascii (f b) /\ R b (f b)) -> Forall ascii s -> exists r, map_chars f s = Ok r /\ Forall2 R s r /\ Forall ascii r.
Proof.
  intros H. induction s as [|b s IH]; intros F; [exists []; repeat split; constructor|]. inversion F as [|? ? Hb Fs]; subst. cbn [map_chars]. rewrite (ctype_ascii f b Hb). cbn [bind]. destruct (IH Fs) as (r & E & HR & HA). rewrite E. cbn [bind]. destruct (H b Hb) as (A & Rb). exists (f b :: r). split; [|split; constructor; assumption]. unfold ascii in A. now rewrite Z.mod_small by lia.
Qed.

(** C105. For every string of ASCII characters: stringIsBlank and stringIsSpace are true
    exactly if all characters are blanks or white space; downcaseString and upcaseString
    change exactly the letters of the other case, each at its place. *)
Theorem C105_partial : forall s, Forall ascii s ->
  (exists y, stringIsBlank s = Ok y /\ (y = true <-> Forall blank s)) /\ (exists y, stringIsSpace s = Ok y /\ (y = true <-> Forall white s)) /\
  (exists r, downcaseString s = Ok r /\ Forall2 lower_of s r) /\ (exists r, upcaseString s = Ok r /\ Forall2 upper_of s r).
Proof.
  intros s F. split; [|split; [|split]].
  - apply all_chars_ok; [|exact F]. intros b _. unfold c_isblank, blank. lia.
  - apply all_chars_ok; [|exact F]. intros b _. unfold c_isspace, white. lia.
  - destruct (map_chars_ok c_tolower lower_of s) as (r & E & R & _); [|exact F|exists r; auto]. intros b Hb. unfold c_tolower, lower_of, ascii in *. destruct ((65 <=? b) && (b <=? 90)) eqn:Q; lia.
  - destruct (map_chars_ok c_toupper upper_of s) as (r & E & R & _); [|exact F|exists r; auto]. intros b Hb. unfold c_toupper, upper_of, ascii in *. destruct ((97 <=? b) && (b <=? 122)) eqn:Q; lia.
Qed.
Print Assumptions C105_partial.

(** Strings equal but for case become the same: changing case forgets nothing else, and
    changing again changes nothing. *)
Theorem C105_roundtrip : forall s l u, Forall ascii s -> downcaseString s = Ok l -> upcaseString s = Ok u ->
  downcaseString u = Ok l /\ upcaseString l = Ok u /\ downcaseString l = Ok l /\ upcaseString u = Ok u /\ length l = length s.
Proof.
  induction s as [|b s IH]; intros l u F El Eu; [cbn in El, Eu; injection El as <-; injection Eu as <-; repeat split; reflexivity|].
  inversion F as [|? ? Hb Fs]; subst. unfold downcaseString, upcaseString in *. cbn [map_chars] in El, Eu. rewrite ctype_ascii in El, Eu by exact Hb. cbn [bind] in El, Eu.
  destruct (map_chars c_tolower s) as [l'| | |]; try discriminate. destruct (map_chars c_toupper s) as [u'| | |]; try discriminate. cbn [bind] in El, Eu. injection El as <-. injection Eu as <-.
  destruct (IH l' u' Fs eq_refl eq_refl) as (H1 & H2 & H3 & H4 & H5). unfold ascii in Hb.
  assert (AL : ascii (c_tolower b)) by (unfold ascii, c_tolower; destruct ((65 <=? b) && (b <=? 90)) eqn:Q; lia). assert (AU : ascii (c_toupper b)) by (unfold ascii, c_toupper; destruct ((97 <=? b) && (b <=? 122)) eqn:Q; lia).
  unfold ascii in AL, AU. rewrite (Z.mod_small (c_tolower b) 256), (Z.mod_small (c_toupper b) 256) by lia. cbn [map_chars length]. rewrite !ctype_ascii by (unfold ascii; assumption). cbn [bind]. rewrite H1, H2, H3, H4. cbn [bind].
  assert (LU : c_tolower (c_toupper b) = c_tolower b /\ c_toupper (c_tolower b) = c_toupper b /\ c_tolower (c_tolower b) = c_tolower b /\ c_toupper (c_toupper b) = c_toupper b).
  { unfold c_tolower, c_toupper. destruct ((65 <=? b) && (b <=? 90)) eqn:Q1, ((97 <=? b) && (b <=? 122)) eqn:Q2; rewrite ?Q1, ?Q2; repeat split;
      repeat match goal with |- context [(?a <=? ?x) && (?y <=? ?c)] => let Q := fresh in destruct ((a <=? x) && (y <=? c)) eqn:Q end; lia. }
  destruct LU as (-> & -> & -> & ->). rewrite !Z.mod_small by lia. repeat split; try reflexivity. now rewrite H5.
Qed.
Print Assumptions C105_roundtrip.

(** Any other character but 255, in a string that is ASCII before it, makes all four pass a
    negative number to a function of <ctype.h>, which is undefined (for stringIsBlank and
    stringIsSpace if all before it is blank). *)
Theorem C105_high_refuted : forall s b r, Forall ascii s -> 128 <= b <= 254 ->
  downcaseString (s ++ b :: r) = UB /\ upcaseString (s ++ b :: r) = UB /\ (Forall blank s -> stringIsBlank (s ++ b :: r) = UB) /\ (Forall white s -> stringIsSpace (s ++ b :: r) = UB).
Proof.
  assert (M : forall f s b r, Forall ascii s -> 128 <= b <= 254 -> map_chars f (s ++ b :: r) = UB).
  { intros f s b r F H. induction s as [|c s IH]; cbn [app map_chars]; [now rewrite ctype_high|]. inversion F as [|? ? Hc Fs]; subst. rewrite (ctype_ascii f c Hc). cbn [bind]. now rewrite IH. }
  assert (C : forall f s b r, Forall ascii s -> Forall (fun c => f c = true) s -> 128 <= b <= 254 -> all_chars f (s ++ b :: r) = UB).
  { intros f s b r F T H. induction s as [|c s IH]; cbn [app all_chars]; [now rewrite ctype_high|]. inversion F as [|? ? Hc Fs]; subst. inversion T as [|? ? Tc Ts]; subst. rewrite (ctype_ascii f c Hc). cbn [bind]. rewrite Tc. cbn [negb]. now apply IH. }
  intros s b r F H. split; [now apply M|]. split; [now apply M|]. split; intros T; apply C; auto; (eapply Forall_impl; [|exact T]); intros c Hc; [unfold blank in Hc; unfold c_isblank|unfold white in Hc; unfold c_isspace]; lia.
Qed.
Print Assumptions C105_high_refuted.
Example C105_ex : Forall ascii [72; 105; 32; 9; 90; 122] /\ downcaseString [72; 105; 32; 9; 90; 122] = Ok [104; 105; 32; 9; 122; 122] /\ upcaseString [72; 105; 32; 9; 90; 122] = Ok [72; 73; 32; 9; 90; 90] /\
  stringIsSpace [32; 10; 9] = Ok true /\ stringIsBlank [32; 10; 9] = Ok false.
Proof. split; [repeat constructor; discriminate|]. vm_compute. auto. Qed.

(** C106. For every string without a NUL and every strtod that uses at most what is there:
    stringToDouble returns what strtod returns if that used the whole, nonempty string, and
    aborts otherwise. *)
Theorem C106_partial : forall V (strtod : list Z -> V * nat) s, ~ In 0 s -> (snd (strtod s) <= length s)%nat ->
  stringToDouble V strtod s = if (0 <? length s)%nat && (snd (strtod s) =? length s)%nat then Ok (fst (strtod s)) else Abort.
Proof.
  intros V strtod s N L. assert (C : c_str s = s). { clear L. induction s as [|b s IH]; [reflexivity|]. cbn [c_str]. destruct (Z.eqb_spec b 0) as [->|Nb]; [exfalso; apply N; now left|]. rewrite IH; [reflexivity|]. intros H. apply N. now right. }
  unfold stringToDouble. rewrite C. destruct (0 <? length s)%nat eqn:P; cbn [invariant bind andb]; [|reflexivity]. destruct (strtod s) as (v, e). cbn [fst snd] in *.
  destruct (Nat.eqb_spec e (length s)) as [->|Ne].
  - rewrite app_nth2, Nat.sub_diag by lia. reflexivity.
  - rewrite app_nth1 by lia. destruct (Z.eqb_spec (nth e s 0) 0) as [Q|Q]; [|reflexivity]. exfalso. apply N. rewrite <- Q. apply nth_In. lia.
Qed.
Print Assumptions C106_partial.
(** What follows a NUL is not looked at: a number, a NUL and anything is accepted, and so is
    a NUL alone, where strtod finds no number. *)
Theorem C106_nul_refuted : forall V (strtod : list Z -> V * nat) s r, ~ In 0 s -> snd (strtod s) = length s -> stringToDouble V strtod (s ++ 0 :: r) = Ok (fst (strtod s)).
Proof.
  intros V strtod s r N L. assert (C : c_str (s ++ 0 :: r) = s). { clear L. induction s as [|b s IH]; [reflexivity|]. cbn [app c_str]. destruct (Z.eqb_spec b 0) as [->|Nb]; [exfalso; apply N; now left|]. rewrite IH; [reflexivity|]. intros H. apply N. now right. }
  unfold stringToDouble. rewrite C. rewrite app_length. cbn [length]. assert (P : (0 <? length s + S (length r))%nat = true) by lia. rewrite P. cbn [invariant bind]. destruct (strtod s) as (v, e). cbn [fst snd] in *. subst e. rewrite app_nth2, Nat.sub_diag by lia. reflexivity.
Qed.
Print Assumptions C106_nul_refuted.
(** strtod reading the digits at the start *)
Definition digits_strtod (s : list Z) : Z * nat :=
  (fix go s acc n := match s with c :: r => if (48 <=? c) && (c <=? 57) then go r (10 * acc + (c - 48)) (S n) else (acc, n) | [] => (acc, n) end) s 0 0%nat.
Example C106_ex : stringToDouble Z digits_strtod [49; 50] = Ok 12 /\ stringToDouble Z digits_strtod [49; 50; 120] = Abort /\ stringToDouble Z digits_strtod [] = Abort /\
  stringToDouble Z digits_strtod [120] = Abort /\ stringToDouble Z digits_strtod [49; 0; 120] = Ok 1 /\ stringToDouble Z digits_strtod [0] = Ok 0.
Proof. vm_compute. auto 10. Qed.
